(** Models of /repo/src/wax/flax/core/advanced_state_patterns.py and core/streaming_transforms.py.
    Python runs these modules eagerly: names are strings, dictionaries are association lists in insertion order,
    a Python set is a list without duplicates which is iterated in an order given by a function [pick]. *)
From Coq Require Import String List Bool Arith ZArith Reals.
From Verif Require Import Model.Tree Model.Unroll Model.Modules Model.FlaxModules.
Import ListNotations.

Definition mem (x : string) (l : list string) : bool := existsb (String.eqb x) l.
(** d.get(k) *)
Fixpoint lookup {V : Type} (k : string) (d : list (string * V)) : option V :=
  match d with
  | [] => None
  | (k', v) :: r => if String.eqb k k' then Some v else lookup k r
  end.
(** d[k] = v: an existing key keeps its place. *)
Fixpoint store {V : Type} (d : list (string * V)) (k : string) (v : V) : list (string * V) :=
  match d with
  | [] => [(k, v)]
  | (k', v') :: r => if String.eqb k k' then (k', v) :: r else (k', v') :: store r k v
  end.
(** {**a, **b} *)
Definition merge {V : Type} (a b : list (string * V)) : list (string * V) :=
  fold_left (fun d p => store d (fst p) (snd p)) b a.
(** dependencies.get(state, []) (lines 91 and 152); dependencies=None is the empty dictionary. *)
Definition deps_of (dependencies : list (string * list string)) (state : string) : list string :=
  match lookup state dependencies with Some l => l | None => [] end.

(** *** HierarchicalStateMachine.get_execution_order: advanced_state_patterns.py lines 79-104.
    [pick ordered remaining] is the order in which the loop of line 90 goes through the set [remaining] after
    [ordered] has been produced; line 97 takes the first of the same order.  [fuel] bounds the number of turns
    of the while loop (None: not finished). *)
Fixpoint order_loop (fuel : nat) (pick : list string -> list string -> list string)
  (dependencies : list (string * list string)) (ordered remaining : list string) : option (list string) :=
  match remaining with
  | [] => Some ordered
  | _ =>
      match fuel with
      | O => None
      | S f =>
          let it := pick ordered remaining in
          let ready :=
            filter (fun state => forallb (fun dep => mem dep ordered || negb (mem dep remaining))
                                   (deps_of dependencies state)) it in           (* 89-93 *)
          let ready := match ready with [] => firstn 1 it | _ => ready end in    (* 95-97 *)
          order_loop f pick dependencies (ordered ++ ready)                      (* 100 *)
            (filter (fun state => negb (mem state ready)) remaining)             (* 101 *)
      end
  end.
Definition get_execution_order (pick : list string -> list string -> list string)
  (dependencies : list (string * list string)) (active_states : list string) : option (list string) :=
  order_loop (length active_states) pick dependencies [] (nodup string_dec active_states).

(** *** _get_hierarchy_levels: lines 142-168.  get_depth (lines 147-157), [fuel] bounding the recursion. *)
Fixpoint max_opt (l : list (option nat)) : option nat :=
  match l with
  | [] => Some 0
  | x :: r => match x, max_opt r with Some a, Some b => Some (Nat.max a b) | _, _ => None end
  end.
Fixpoint get_depth (fuel : nat) (dependencies : list (string * list string)) (visited : list string)
  (state_name : string) : option nat :=
  match fuel with
  | O => None
  | S f =>
      if mem state_name visited then Some 0                                      (* 148-149 *)
      else
        match deps_of dependencies state_name with                               (* 152-154 *)
        | [] => Some 0
        | deps =>
            match max_opt (map (get_depth f dependencies (state_name :: visited)) deps) with (* 156 *)
            | Some m => Some (m + 1)
            | None => None
            end
        end
  end.
(** the depth of a state, line 160; each name with dependencies is visited once at most on a path *)
Definition depth (dependencies : list (string * list string)) (state_name : string) : option nat :=
  get_depth (S (S (length dependencies))) dependencies [] state_name.
(** levels[level] (lines 159-163), states in order of registration. *)
Definition at_level (dependencies : list (string * list string)) (names : list string) (level : nat)
  : list string :=
  filter (fun n => match depth dependencies n with Some d => Nat.eqb d level | None => false end) names.
(** all states by increasing level (lines 122-124 : sorted(levels.keys())) *)
Definition by_level (dependencies : list (string * list string)) (names : list string) : list string :=
  flat_map (at_level dependencies names) (seq 0 (S (S (length dependencies)))).
(** _get_higher_level_states: lines 167-182 *)
Definition higher_level_states (dependencies : list (string * list string)) (names : list string)
  (state_name : string) : list string :=
  match depth dependencies state_name with
  | Some d => flat_map (at_level dependencies names) (seq 0 d)
  | None => []
  end.

(** What the state modules return: numbers, other values, dictionaries. *)
Inductive pyval : Type :=
| PNum (r : R)
| PStr (s : string)
| PDict (d : list (string * pyval)).

(** _apply_hierarchical_influence: lines 184-205.  Blending a number with something else raises (None). *)
Local Open Scope R_scope.
Definition blend (low high : R) : R := (1 - 1 / 10) * low + 1 / 10 * high.
Fixpoint influence_items (low high : list (string * pyval)) : option (list (string * pyval)) :=
  match low with
  | [] => Some []
  | (k, v) :: r =>
      let v' := match v, lookup k high with
                | PNum a, Some (PNum b) => Some (PNum (blend a b))
                | PNum _, Some _ => None
                | _, _ => Some v
                end in
      match v', influence_items r high with
      | Some w, Some r' => Some ((k, w) :: r')
      | _, _ => None
      end
  end.
Definition apply_influence (lower higher : pyval) : option pyval :=
  match lower, higher with
  | PDict low, PDict high => match influence_items low high with Some d => Some (PDict d) | None => None end
  | _, _ => Some lower
  end.
Local Close Scope R_scope.

(** coordinate_states with coordination_strategy="hierarchical": lines 114-136.  One state: *)
Fixpoint influences (highers : list string) (coordinated : list (string * pyval)) (output : pyval)
  : option pyval :=
  match highers with
  | [] => Some output
  | h :: r =>
      match lookup h coordinated with
      | None => influences r coordinated output
      | Some hv => match apply_influence output hv with
                   | Some o => influences r coordinated o
                   | None => None
                   end
      end
  end.
Fixpoint coordinate_loop (dependencies : list (string * list string)) (names todo : list string)
  (state_outputs coordinated : list (string * pyval)) : option (list (string * pyval)) :=
  match todo with
  | [] => Some coordinated
  | n :: r =>
      match lookup n state_outputs with
      | None => coordinate_loop dependencies names r state_outputs coordinated
      | Some output =>
          match influences (higher_level_states dependencies names n) coordinated output with
          | Some o => coordinate_loop dependencies names r state_outputs (store coordinated n o)
          | None => None
          end
      end
  end.
Inductive coordination := Sequential | Hierarchical | Parallel.
Definition coordinate_states (strategy : coordination) (dependencies : list (string * list string))
  (names : list string) (state_outputs : list (string * pyval)) : option (list (string * pyval)) :=
  match strategy with
  | Hierarchical =>
      coordinate_loop dependencies names (by_level dependencies names) state_outputs []
  | _ => Some state_outputs
  end.

(** HierarchicalStateMachine.__call__: lines 206-243.  A module returns a value or raises an exception ([inr] with
    its message); [st] gives the variables of each module.  The state of the coordination (counters which are
    never read) is not modelled. *)
Definition upd {V : Type} (st : string -> V) (k : string) (v : V) : string -> V :=
  fun k' => if String.eqb k' k then v else st k'.
Definition shown (o : pyval + string) : pyval :=                                 (* 221-228 *)
  match o with
  | inl v => v
  | inr e => PDict [("error"%string, PStr e); ("status"%string, PStr "failed")]
  end.
Section HSM.
  Context {S X : Type}.
  Variable mods : list (string * flax_module S X (pyval + string)).
  Fixpoint execute (order : list string) (outs : list (string * pyval)) (st : string -> S) (x : X)
    : list (string * pyval) * (string -> S) :=
    match order with
    | [] => (outs, st)
    | n :: r =>
        match lookup n mods with                                                 (* 218 *)
        | None => execute r outs st x
        | Some m =>
            let '(o, s') := fx_call m (st n) x in
            execute r (store outs n (shown o)) (upd st n s') x
        end
    end.
  Definition hsm_call (pick : list string -> list string -> list string)
    (dependencies : list (string * list string)) (strategy : coordination) (st : string -> S) (x : X)
    : option (list (string * pyval) * (string -> S)) :=
    match get_execution_order pick dependencies (map fst mods) with
    | None => None
    | Some order =>
        let '(outs, st') := execute order [] st x in
        match coordinate_states strategy dependencies (map fst mods) outs with
        | Some c => Some (c, st')
        | None => None
        end
    end.
End HSM.

(** *** AttentionBasedStateSelector: advanced_state_patterns.py lines 246-418.  [encode] is the embedding of the
    current state (state_encoder of the padded vector, lines 349-368), [attend e h] the additive context
    0.1 * context of lines 387-396 added to [e]; [zero] is a zero embedding.  The query path is not modelled. *)
Section Selector.
  Context {X E : Type}.
  Record selector_state := SelectorState { history : list E; pointer : nat; size : nat }.
  Record selector_out := SelectorOut
    { enhanced_state : E; original_state : E; relevant_history : list E; attention_weights : list R }.
  (** add_to_history: lines 276-288 *)
  Definition add_to_history (N : nat) (st : selector_state) (e : E) : selector_state :=
    SelectorState (set_at (history st) (pointer st) e) ((pointer st + 1) mod N) (Nat.min (size st + 1) N).
  (** the valid history: lines 323-329 and 378-385 *)
  Definition valid_history (N : nat) (st : selector_state) : list E :=
    if size st <? N then firstn (size st) (history st)
    else skipn (pointer st) (history st) ++ firstn (pointer st) (history st).
  (** __call__: lines 346-418 *)
  Definition selector_call (N : nat) (encode : X -> E) (attend : E -> list E -> E) (zero : E)
    (use_attention : bool) (st : selector_state) (x : X) : selector_out * selector_state :=
    let e := encode x in
    let out :=
      if use_attention && (1 <? size st) then                                    (* 369 *)
        let v := valid_history N st in
        SelectorOut (attend e v) e v (repeat (1 / INR (length v))%R (length v))
      else SelectorOut e e [zero] [0%R] in                                       (* 391-399 *)
    (out, add_to_history N st e).
  (** setup: lines 268-274 *)
  Definition Selector (N : nat) (encode : X -> E) (attend : E -> list E -> E) (zero : E) (use_attention : bool)
    : flax_module selector_state X selector_out :=
    FlaxModule (fun _ => SelectorState (repeat zero N) 0 0) (selector_call N encode attend zero use_attention).
End Selector.
Arguments selector_state : clear implicits.
Arguments selector_out : clear implicits.

(** *** CompositeStateManager: advanced_state_patterns.py lines 421-483. *)
Section Composite.
  Context {S : Type}.
  Variable patterns : list (string * flax_module S pyval pyval).
  (** lines 438-452 *)
  Definition feed (current output : pyval) : pyval :=
    match output, current with PDict o, PDict c => PDict (merge c o) | _, _ => output end.
  Fixpoint pipeline (ps : list (string * flax_module S pyval pyval)) (st : string -> S) (current : pyval)
    (outputs : list (string * pyval)) : list (string * pyval) * (string -> S) :=
    match ps with
    | [] => (outputs, st)
    | (n, m) :: r =>
        let '(o, s') := fx_call m (st n) current in
        pipeline r (upd st n s') (feed current o) (store outputs n o)
    end.
  (** lines 454-462 *)
  Fixpoint parallel (ps : list (string * flax_module S pyval pyval)) (st : string -> S) (input : pyval)
    (outputs : list (string * pyval)) : list (string * pyval) * (string -> S) :=
    match ps with
    | [] => (outputs, st)
    | (n, m) :: r =>
        let '(o, s') := fx_call m (st n) input in parallel r (upd st n s') input (store outputs n o)
    end.
  (** lines 464-479 *)
  Fixpoint hierarchical (ps : list (string * flax_module S pyval pyval)) (st : string -> S) (processed : pyval)
    (outputs : list (string * pyval)) : list (string * pyval) * (string -> S) :=
    match ps with
    | [] => (outputs, st)
    | (n, m) :: r =>
        let '(o, s') := fx_call m (st n) processed in
        let processed' :=
          match o with
          | PDict d => match lookup "influence" d with Some v => v | None => processed end
          | _ => processed
          end in
        hierarchical r (upd st n s') processed' (store outputs n o)
    end.
  (** lines 436-483; an unknown strategy raises ValueError *)
  Definition composite_call (strategy : string) (st : string -> S) (input : pyval)
    : option (list (string * pyval) * (string -> S)) :=
    if String.eqb strategy "pipeline" then Some (pipeline patterns st input [])
    else if String.eqb strategy "parallel" then Some (parallel patterns st input [])
    else if String.eqb strategy "hierarchical" then Some (hierarchical patterns st input [])
    else None.
End Composite.

(** *** StreamingStateMachine: streaming_transforms.py lines 186-248. *)
Section Machine.
  Context {S X Y : Type}.
  Variable states : list (string * flax_module S X Y).
  Variable transitions : list (string * list (string * (X -> bool))).
  (** get_next_state: lines 223-232 *)
  Definition get_next_state (current : string) (x : X) : string :=
    match lookup current transitions with
    | None => current
    | Some conds =>
        match find (fun p => snd p x) conds with Some (n, _) => n | None => current end
    end.
  (** __call__: lines 234-248; states[current] raises KeyError if the state has no module. *)
  Definition machine_call (cs : string * (string -> S)) (x : X)
    : option ((Y * string) * (string * (string -> S))) :=
    let '(current, st) := cs in
    match lookup current states with
    | None => None
    | Some m =>
        let '(output, s') := fx_call m (st current) x in
        let next_state := get_next_state current x in
        Some ((output, next_state), (next_state, upd st current s'))
    end.
  Fixpoint machine_run (cs : string * (string -> S)) (xs : list X)
    : option (list (Y * string) * (string * (string -> S))) :=
    match xs with
    | [] => Some ([], cs)
    | x :: r =>
        match machine_call cs x with
        | None => None
        | Some (y, cs1) =>
            match machine_run cs1 r with
            | None => None
            | Some (ys, cs2) => Some (y :: ys, cs2)
            end
        end
    end.
End Machine.

(** *** StreamingTransform.scan: streaming_transforms.py lines 412-438.  apply (lines 392-410) is that of
    flax_transform_with_state; the key is not split. *)
Definition streaming_transform_scan {K P S X Y : Type} (tf : transformed K P S X Y)
  (params : P) (state : S) (rng : option K) (inputs : list X) : list Y * S :=
  let '(final_state, outputs) :=
    lax_scan (fun carry x => let '(o, s) := t_apply tf params carry rng x in (s, o)) state inputs in
  (outputs, final_state).

(** *** streaming_scan: streaming_transforms.py lines 631-712.  scan_apply, lines 669-698: the initial state is
    that of init on the first input unless given ([k0] is PRNGKey(0)).  Line 674 evaluates [rng or PRNGKey(0)]: the
    truth value of a key (an array of two numbers, or a typed key) raises, so that a key can only be given together
    with params and state. *)
Definition streaming_scan {K P S X Y : Type} (k0 : K) (tf : transformed K P S X Y)
  (reset_on : option (X -> bool)) (preserve_state : bool)
  (inputs : list X) (params : option P) (state : option S) (rng : option K) : option (list Y * S) :=
  let start :=                                                                   (* 671-674 *)
    match params, state with
    | Some p, Some s => Some (p, s)
    | _, _ =>
        match inputs, rng with
        | [], _ => None
        | _, Some _ => None                                                      (* 674: [rng or ...] tests a key *)
        | x0 :: _, None => Some (t_init tf (Some k0) x0)
        end
    end in
  match start with
  | None => None
  | Some (p, s0) =>
      let '(final_state, outputs) :=
        lax_scan
          (fun carry x =>
             let '(o, s) := t_apply tf p carry rng x in                          (* 679 *)
             let s :=                                                            (* 682-692 *)
               match reset_on with
               | Some r => if preserve_state then (if r x then s0 else s) else s
               | None => s
               end in
             (s, o)) s0 inputs in
      Some (outputs, final_state)
  end.

(** StreamingScan: lines 575-628, without reset_fn (a reset_fn makes Python test a traced value, which raises). *)
Definition streaming_scan_module {X Y : Type} (fn : X -> Y) (reset_fn : option (X -> bool))
  (inputs : list X) (initial_state : R) : option (list Y * R) :=
  match reset_fn with
  | Some _ => None
  | None =>
      let '(final, outputs) := lax_scan (fun carry x => (carry, fn x)) initial_state inputs in
      Some (outputs, final)
  end.

(** *** ConditionalComputation: streaming_transforms.py lines 468-528.  [full_like] fills an output with
    initial_output_value; the variables are those of the modules of update_fn and the cache. *)
Definition conditional_call {S X Y : Type} (full_like : Y -> Y) (m : flax_module S X Y)
  (event_fn : option (X -> bool)) (st : S * option Y) (x : X) : Y * (S * option Y) :=
  let '(s, cache) := st in
  let '(new_output, s') := fx_call m s x in                                      (* 499 *)
  let cached := match cache with Some c => c | None => full_like new_output end in (* 503-510 *)
  match event_fn with
  | None => (new_output, (s', Some new_output))                                  (* 512-515 *)
  | Some ev =>
      let selected := if ev x then new_output else cached in                     (* 517-524 *)
      (selected, (s', Some selected))
  end.
(** No cache variable exists before the first call. *)
Definition ConditionalComputation {S X Y : Type} (full_like : Y -> Y) (m : flax_module S X Y)
  (event_fn : option (X -> bool)) : flax_module (S * option Y) X Y :=
  FlaxModule (fun x0 => (fx_vars m x0, None)) (conditional_call full_like m event_fn).

(** *** ConditionalStateUpdate: streaming_transforms.py lines 134-183; resetting is not implemented there. *)
Definition conditional_update_call {S X : Type} (m : flax_module S X X) (condition_fn : X -> bool)
  (st : S) (x : X) : X * S :=
  if condition_fn x then fx_call m st x else (x, st).
Definition ConditionalStateUpdate {S X : Type} (m : flax_module S X X) (condition_fn : X -> bool)
  : flax_module S X X := FlaxModule (fx_vars m) (conditional_update_call m condition_fn).

(** *** HierarchicalState: streaming_transforms.py lines 68-131.  Modules take keyword arguments. *)
Section HState.
  Context {S V : Type}.
  (** _get_module_inputs: lines 111-127 *)
  Definition module_inputs (dependencies : list (string * list string)) (name : string)
    (initial computed : list (string * V)) : list (string * V) :=
    let from_deps :=
      fold_left (fun d dep => match lookup dep computed with Some v => store d dep v | None => d end)
        (deps_of dependencies name) [] in
    merge from_deps initial.
  (** execute_in_order: lines 96-109 *)
  Fixpoint execute_in_order (dependencies : list (string * list string))
    (ms : list (string * flax_module S (list (string * V)) V)) (st : string -> S)
    (inputs outputs : list (string * V)) : list (string * V) * (string -> S) :=
    match ms with
    | [] => (outputs, st)
    | (n, m) :: r =>
        let '(o, s') := fx_call m (st n) (module_inputs dependencies n inputs outputs) in
        execute_in_order dependencies r (upd st n s') inputs (store outputs n o)
    end.
End HState.

(** *** StreamingOptimizer: streaming_transforms.py lines 715-787.  [vg o t s] is
    jax.value_and_grad(lambda s: loss_fn(o * s, t)); [optimizer] an optax transformation on scalars. *)
Section SOpt.
  Context {S X Y L T O : Type}.
  Variable model : flax_module S X Y.
  Variable target : X -> T.
  Variable vg : Y -> T -> R -> L * R.
  Variable opt_init : R -> O.
  Variable opt_update : R -> O -> R -> R * O.
  Definition sopt_call (st : S * (R * O)) (x : X) : ((L * Y) * (R * R)) * (S * (R * O)) :=
    let '(s, (scale, opt_state)) := st in
    let '(model_output, s') := fx_call model s x in
    let '(loss_val, grads) := vg model_output (target x) scale in
    let '(updates, opt_state') := opt_update grads opt_state scale in
    let new_scale := (scale + updates)%R in
    (((loss_val, model_output), (new_scale, grads)), (s', (new_scale, opt_state'))).
  Definition StreamingOptimizer : flax_module (S * (R * O)) X ((L * Y) * (R * R)) :=
    FlaxModule (fun x0 => (fx_vars model x0, (1%R, opt_init 1%R))) sopt_call.
End SOpt.
