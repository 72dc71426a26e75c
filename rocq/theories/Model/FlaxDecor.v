(** Model of the decorators of /repo/src/wax/flax/core/streaming_transforms.py, core/advanced_state_patterns.py and
    modules/compressed_buffer.py, of the auxiliary outputs of StreamingOptimizer, and of the vectors and the query
    method of AttentionBasedStateSelector.  hierarchical_composition, conditional_update and state_machine
    (streaming_transforms.py lines 252-342) are not modelled: see DESIGN.md. *)
From Coq Require Import String List Bool Arith Reals DecimalString.
From Verif Require Import Model.Unroll Model.Float Model.FlaxModules Model.FlaxCore Model.Compressed.
Import ListNotations.

(** Successive calls of something that may raise (None), its variables being threaded. *)
Fixpoint calls {S X Y : Type} (call : S -> X -> option (Y * S)) (s : S) (xs : list X) : option (list Y * S) :=
  match xs with
  | [] => Some ([], s)
  | x :: r =>
      match call s x with
      | None => None
      | Some (y, s1) =>
          match calls call s1 r with
          | None => None
          | Some (ys, s2) => Some (y :: ys, s2)
          end
      end
  end.

(** The wrapper of a decorator: the pattern is called on the arguments, then the decorated function on what the
    pattern returned and on the arguments (advanced_state_patterns.py lines 508-515, 532-542 and 564-573;
    compressed_buffer.py lines 482-493 and 524-539).  [fn] may use modules of its own. *)
Definition decorated {SP SF X O Y : Type} (pattern : SP -> X -> option (O * SP)) (fn : flax_module SF (O * X) Y)
  (st : SP * SF) (x : X) : option (Y * (SP * SF)) :=
  match pattern (fst st) x with
  | None => None
  | Some (o, sp) => let '(y, sf) := fx_call fn (snd st) (o, x) in Some (y, (sp, sf))
  end.

(** advanced_state_patterns.py lines 106-139: any other name means parallel *)
Definition coordination_of (name : string) : coordination :=
  if String.eqb name "sequential" then Sequential
  else if String.eqb name "hierarchical" then Hierarchical
  else Parallel.
(** advanced_state_patterns.py lines 489-518 *)
Definition streaming_state_machine {S SF X Y : Type} (pick : list string -> list string -> list string)
  (state_modules : list (string * flax_module S X (pyval + string))) (dependencies : list (string * list string))
  (strategy : string) (fn : flax_module SF (list (string * pyval) * X) Y)
  : (string -> S) * SF -> X -> option (Y * ((string -> S) * SF)) :=
  decorated (hsm_call state_modules pick dependencies (coordination_of strategy)) fn.
(** advanced_state_patterns.py lines 520-546: the first argument is the current state *)
Definition streaming_attention_state {SF X A E Y : Type} (max_history : nat) (encode : X -> E)
  (attend : E -> list E -> E) (zero : E) (fn : flax_module SF (selector_out E * (X * A)) Y)
  : selector_state E * SF -> X * A -> option (Y * (selector_state E * SF)) :=
  decorated (fun s xa => Some (selector_call max_history encode attend zero true s (fst xa))) fn.
(** advanced_state_patterns.py lines 549-577: the patterns are named pattern_0, pattern_1, ... *)
Definition pattern_name (i : nat) : string := "pattern_" ++ NilZero.string_of_uint (Nat.to_uint i).
Definition numbered {M : Type} (modules : list M) : list (string * M) :=
  combine (map pattern_name (seq 0 (length modules))) modules.
Definition streaming_compose_states {S SF A Y : Type} (modules : list (flax_module S pyval pyval)) (strategy : string)
  (fn : flax_module SF (list (string * pyval) * (pyval * A)) Y)
  : (string -> S) * SF -> pyval * A -> option (Y * ((string -> S) * SF)) :=
  decorated (fun s xa => composite_call (numbered modules) strategy s (fst xa)) fn.
(** compressed_buffer.py lines 467-497: the first argument is the input of the buffer, fill_value keeps its
    default 0.0 *)
Definition streaming_compressed_memory {SF A Y : Type} (fmax_ : R) (to_int : fl -> Z) (maxlen : nat) (s : strategy)
  (fn : flax_module SF (cb_out * (fl * A)) Y) : cb_state * SF -> fl * A -> option (Y * (cb_state * SF)) :=
  decorated (fun st xa => Some (cb_call fmax_ to_int maxlen s st (fst xa))) fn.
(** compressed_buffer.py lines 500-543 *)
Definition streaming_hierarchical_memory {SF A Y : Type} (fmax_ : R) (to_int : fl -> Z)
  (recent_maxlen medium_maxlen long_maxlen : nat) (medium long : strategy)
  (fn : flax_module SF (hb_out * (fl * A)) Y) : hb_state * SF -> fl * A -> option (Y * (hb_state * SF)) :=
  decorated (fun st xa => Some (hb_call fmax_ to_int recent_maxlen medium_maxlen long_maxlen medium long st (fst xa))) fn.

(** *** streaming_transforms.py lines 731-787, StreamingOptimizer with has_aux=True (the model returns an output and
    auxiliary values), and lines 790-838, streaming_optimizer, which returns loss_info only. *)
(** line 756: the target is the second positional argument, or the first if there is only one *)
Definition target_of {V : Type} (args : list V) : option V :=
  match args with
  | _ :: t :: _ => Some t
  | [t] => Some t
  | [] => None
  end.
Section SOptAux.
  Context {S X Y A L T O : Type}.
  Variable model : flax_module S X (Y * A).
  Variable target : X -> T.
  Variable vg : Y -> T -> R -> L * R.
  Variable opt_init : R -> O.
  Variable opt_update : R -> O -> R -> R * O.
  Definition sopt_aux_call (st : S * (R * O)) (x : X) : ((L * Y * A) * (R * R)) * (S * (R * O)) :=
    let '(s, (scale, opt_state)) := st in
    let '((model_output, aux), s') := fx_call model s x in                       (* 749-750 *)
    let '(loss_val, grads) := vg model_output (target x) scale in                (* 765-770 *)
    let '(updates, opt_state') := opt_update grads opt_state scale in            (* 776 *)
    let new_scale := (scale + updates)%R in                                      (* 777 *)
    (((loss_val, model_output, aux), (new_scale, grads)), (s', (new_scale, opt_state'))).
  Definition StreamingOptimizerAux : flax_module (S * (R * O)) X ((L * Y * A) * (R * R)) :=
    FlaxModule (fun x0 => (fx_vars model x0, (1%R, opt_init 1%R))) sopt_aux_call.
End SOptAux.
(** lines 829-836 *)
Definition streaming_optimizer {S X I U : Type} (opt : flax_module S X (I * U)) : flax_module S X I :=
  FlaxModule (fx_vars opt) (fun s x => let '((loss_info, updated_params), s') := fx_call opt s x in (loss_info, s')).

(** *** AttentionBasedStateSelector: advanced_state_patterns.py lines 290-367.  The entries of a state: numbers, one
    dimensional jax arrays, and anything else (strings, dictionaries, numpy arrays), which counts as 0. *)
Inductive entry := ENum (r : R) | EArr (l : list R) | EOther.
Definition entry_values (e : entry) : list R :=
  match e with ENum r => [r] | EArr l => l | EOther => [0%R] end.
(** lines 295-307 and 349-361: the values of a dictionary (jnp.concatenate of nothing raises), or a number or array;
    anything else raises *)
Inductive current := CDict (d : list (string * entry)) | CVal (e : entry).
Definition state_vector (c : current) : option (list R) :=
  match c with
  | CDict [] => None
  | CDict d => Some (concat (map (fun kv => entry_values (snd kv)) d))
  | CVal (ENum r) => Some [r]
  | CVal (EArr l) => Some l
  | CVal EOther => None
  end.
(** lines 309-313 and 363-366: truncate or pad with zeros *)
Definition fit (embed_dim : nat) (v : list R) : list R :=
  if embed_dim <? length v then firstn embed_dim v else v ++ repeat 0%R (embed_dim - length v).
(** get_relevant_states, lines 290-344: the query and the attention (lines 315 and 334) do not reach the result *)
Definition get_relevant_states {E : Type} (N : nat) (zero : E) (st : selector_state E) (current_state : current)
  (top_k : nat) : option (list E * list R) :=
  match state_vector current_state with
  | None => None
  | Some _ =>
      if Nat.eqb (size st) 0 then Some ([zero], [0%R])
      else
        let valid := valid_history N st in
        let weights := repeat (1 / INR (length valid))%R (length valid) in
        let k := Nat.min top_k (length valid) in
        Some (firstn k valid, firstn k weights)
  end.
