(** Model of flax variables as dictionaries of collections: /repo/src/wax/flax/core/transform.py (flax_transform_with_state,
    combine_variables, split_variables) and the wrappers of /repo/src/wax/flax/core/state_utils.py.
    A flax module is given by Module.init and by Module.apply with mutable=True, which returns every collection; dictionaries
    are lists of keys and values in insertion order; a FrozenDict is a dict. *)
From Coq Require Import String List Bool.
From Verif Require Import Model.Unroll Model.FlaxOptim.
Import ListNotations.
Local Open Scope list_scope.

Section Vars.
  Context {C : Type}.
  Definition variables : Type := list (string * C).
  (** transform.py lines 98-100: {"params": params, **state} *)
  Definition combine_variables (params : C) (state : variables) : variables :=
    dict_update [("params"%string, params)] state.
  (** lines 103-107; [empty] is FrozenDict() *)
  Definition split_variables (empty : C) (v : variables) : C * variables :=
    (match sget "params" v with Some p => p | None => empty end,
     filter (fun kv => negb (String.eqb (fst kv) "params")) v).

  Context {K X Y : Type}.
  Variables (module_init : option K -> X -> variables) (module_apply : variables -> option K -> X -> Y * variables).
  Variable empty : C.
  (** lines 59-69 *)
  Definition tf_init (rng : option K) (x : X) : C * variables :=
    let v := module_init rng x in
    (match sget "params" v with Some p => p | None => empty end,
     filter (fun kv => negb (String.eqb (fst kv) "params")) v).
  (** lines 71-95 *)
  Definition tf_apply (params : C) (state : variables) (rng : option K) (x : X) : Y * variables :=
    let v := dict_update [("params"%string, params)] state in
    let '(output, new_variables) := module_apply v rng x in
    (output, filter (fun kv => negb (String.eqb (fst kv) "params")) new_variables).
  Definition dict_transform : transformed K C variables X Y := Transformed tf_init tf_apply.
End Vars.
Arguments variables : clear implicits.

(** state_utils.py lines 81-90, StreamingModuleWrapper: the wrapped module is a submodule: flax keeps its variables under the
    name of the attribute in every collection, and gives it keys derived from that name ([fold]). *)
Section Wrapper.
  Context {V K X Y : Type}.
  Variables (module_init : option K -> X -> variables (ptree V))
    (module_apply : variables (ptree V) -> option K -> X -> Y * variables (ptree V)).
  Variable fold : K -> K.
  Definition nest (c : ptree V) : ptree V := PDict [("wrapped_module"%string, c)].
  Definition unnest (c : ptree V) : ptree V :=
    match c with PDict kvs => match sget "wrapped_module" kvs with Some c => c | None => PDict [] end | PLeaf _ => PDict [] end.
  Definition wrap (v : variables (ptree V)) : variables (ptree V) := map (fun kv => (fst kv, nest (snd kv))) v.
  Definition unwrap (v : variables (ptree V)) : variables (ptree V) := map (fun kv => (fst kv, unnest (snd kv))) v.
  Definition wrapper_init (rng : option K) (x : X) : variables (ptree V) := wrap (module_init (option_map fold rng) x).
  Definition wrapper_apply (v : variables (ptree V)) (rng : option K) (x : X) : Y * variables (ptree V) :=
    let '(y, v') := module_apply (unwrap v) (option_map fold rng) x in (y, wrap v').
  (** lines 61-78 and 92-103 *)
  Definition create_streaming_module_wrapper := dict_transform module_init module_apply (PDict []).
  Definition make_streaming_compatible := dict_transform wrapper_init wrapper_apply (PDict []).
End Wrapper.
