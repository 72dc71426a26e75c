(** Model of /repo/src/wax/modules/update_on_event.py by names: the state of a haiku frame is a dictionary of module names
    and bundles, and UpdateOnEvent freezes the part of it which belongs to the wrapped module by its name.
    Model/Dynamics.v has the version in which the wrapped module owns its whole state.
    [V]: values of states and outputs (pytrees of arrays).  [None]: an exception. *)
From Coq Require Import String List Bool.
From Verif Require Import Model.FlaxOptim.
Import ListNotations.
Local Open Scope list_scope.

Section Named.
  Context {V X : Type}.
  Definition frame : Type := list (string * list (string * V)).
  Definition lookup (fr : frame) (m n : string) : option V :=
    match sget m fr with Some b => sget n b | None => None end.
  (** hk.set_state(n, v) in the module m *)
  Definition put (m n : string) (v : V) (fr : frame) : frame :=
    sset m (sset n v (match sget m fr with Some b => b | None => [] end)) fr.

  (** update_on_event.py lines 39-43 (and haiku's get_params_or_state_dict): the modules concerned *)
  Definition in_scope (module_name : string) (submodules : list string) (their : string) : bool :=
    String.eqb their module_name || String.prefix (module_name ++ "/") their || existsb (String.eqb their) submodules.
  Definition fq_name (m n : string) : string := (m ++ "/" ++ n)%string.
  (** hk.Module.state_dict() *)
  Definition state_dict (module_name : string) (submodules : list string) (fr : frame) : list (string * V) :=
    dict_update []
      (flat_map (fun mb => if in_scope module_name submodules (fst mb)
                           then map (fun nv => (fq_name (fst mb) (fst nv), snd nv)) (snd mb) else []) fr).
  (** lines 44-51: bundle[name] = state_dict[fq_name]; KeyError: None *)
  Fixpoint set_bundle (m : string) (d : list (string * V)) (b : list (string * V)) : option (list (string * V)) :=
    match b with
    | [] => Some []
    | (n, _) :: r => match sget (fq_name m n) d, set_bundle m d r with
                     | Some v, Some r' => Some ((n, v) :: r')
                     | _, _ => None
                     end
    end.
  (** lines 29-51 *)
  Fixpoint set_state_from_dict (module_name : string) (submodules : list string) (d : list (string * V)) (fr : frame) : option frame :=
    match fr with
    | [] => Some []
    | (m, b) :: r =>
        match (if in_scope module_name submodules m then set_bundle m d b else Some b),
              set_state_from_dict module_name submodules d r with
        | Some b', Some r' => Some ((m, b') :: r')
        | _, _ => None
        end
    end.

  Definition keys_in (a b : list (string * V)) : bool :=
    forallb (fun kv => match sget (fst kv) b with Some _ => true | None => false end) a.
  (** lines 85-126; [wname]: the name of the UpdateOnEvent module; [call]: the wrapped module, which reads and writes the
      frame; [full]: tree_map(jnp.full(x.shape, initial_output_value)).  hk.cond (110-118) raises unless the two branches
      have the same structure. *)
  Definition update_on_event_named (wname module_name : string) (submodules : list string) (full : V -> V)
    (call : X -> frame -> option (V * frame)) (on_event : bool) (x : X) (fr : frame) : option (V * frame) :=
    let prev_state := state_dict module_name submodules fr in
    match call x fr with
    | None => None
    | Some (output, fr1) =>
        let prev_output := match lookup fr1 wname "prev_output" with Some v => v | None => full output end in
        let next_state := match prev_state with [] => [] | _ => state_dict module_name submodules fr1 end in
        if keys_in prev_state next_state && keys_in next_state prev_state then
          let '(o, d) := if on_event then (output, next_state) else (prev_output, prev_state) in
          match (match d with [] => Some fr1 | _ => set_state_from_dict module_name submodules d fr1 end) with
          | None => None
          | Some fr2 => Some (o, put wname "prev_output" o fr2)
          end
        else None
    end.
End Named.
Arguments frame : clear implicits.
