(** Vocabulary for the recording side of the visualisation tools (C100-C102). *)
From Coq Require Import String List Bool Arith ZArith Reals.
From Verif Require Import Model.FlaxOptim Model.Viz Spec.StreamSpec.
Import ListNotations.
Local Open Scope list_scope.

(** ** A tracker *)
Definition no_clear (ops : list tracker_op) : Prop := forall now, ~ In (TClear now) ops.
(** The points recorded by a history of calls without clear, [k] steps after the start: each has the number of steps made
    before it and the time since the start. *)
Fixpoint recorded (start : R) (k : nat) (ops : list tracker_op) : list point :=
  match ops with
  | [] => []
  | TRecord now name ty v md :: r => Point (now - start) k name ty v (value_shape v) md :: recorded start k r
  | TStep :: r => recorded start (k + 1) r
  | TClear _ :: r | TQuery _ _ :: r => recorded start k r
  end.
Definition is_step (o : tracker_op) : bool := match o with TStep => true | _ => false end.
(** The greatest step of some points. *)
Definition last_step (l : list point) (n : nat) : Prop :=
  match l with [] => n = 0 | _ => (exists p, In p l /\ pt_step p = n) /\ forall p, In p l -> pt_step p <= n end.
Definition of_module (name : string) (p : point) : bool := String.eqb (pt_module p) name.
(** The type asked for: none, or the empty one, accepts everything. *)
Definition of_type (ty : option string) (p : point) : bool :=
  match ty with None => true | Some t => String.eqb t "" || String.eqb (pt_type p) t end.

(** The shape of a value, its number of elements, the number it is when it is one. *)
Inductive has_shape : value -> list nat -> Prop :=
  | hs_array : forall shape data, has_shape (VArray shape data) shape
  | hs_sized : forall n, has_shape (VSized n) [n]
  | hs_num : forall x, has_shape (VNum x) []
  | hs_object : forall s, has_shape (VObject s) [].
Inductive has_size : list nat -> nat -> Prop := sz_scalar : has_size [] 1 | sz_axis : forall n l k, has_size l k -> has_size (n :: l) (n * k).
Definition is_number (v : value) (x : R) : Prop := v = VNum x \/ v = VArray [] [x].
(** Step and value of the points of a module. *)
Definition module_points (m : string) (l : list point) : list (nat * value) := map (fun p => (pt_step p, pt_value p)) (filter (of_module m) l).

(** ** A dashboard *)
Definition never_registered (id : string) (ops : list dash_op) : Prop := forall now, ~ In (DRegister id now) ops.
(** What reaches the tracker of a pipeline. *)
Definition calls_on (id : string) (ops : list dash_op) : list tracker_op :=
  flat_map (fun o => match o with
                     | DRecord i name ty v md now => if String.eqb id i then [TRecord now name ty v md] else []
                     | DStep i => if String.eqb id i then [TStep] else []
                     | _ => []
                     end) ops.
(** The records made on pipelines that were registered by then: pipeline, metadata, time. *)
Fixpoint accepted (known : list string) (ops : list dash_op) : list (string * meta * R) :=
  match ops with
  | [] => []
  | DRegister id _ :: r => accepted (id :: known) r
  | DRecord id _ _ _ md now :: r => (if existsb (String.eqb id) known then [(id, md, now)] else []) ++ accepted known r
  | _ :: r => accepted known r
  end.
(** The values under a metadata key in the accepted records of a pipeline. *)
Definition reported (id key : string) (l : list (string * meta * R)) : list R :=
  flat_map (fun e => let '(i, md, _) := e in
                     if String.eqb id i then match sget key md with Some x => [x] | None => [] end else []) l.
(** The alerts an accepted record raises: strictly above the limit, execution time first. *)
Definition above (limit : R) (o : option R) : list R :=
  match o with Some x => if Rlt_dec limit x then [x] else [] | None => [] end.
Definition alerts_of (c : dash_config) (e : string * meta * R) : list alert :=
  let '(id, md, now) := e in
  if dc_alerts c then
    map (Alert now Performance id) (above (dc_slow_ms c) (sget "execution_time_ms" md)) ++
    map (Alert now Memory id) (above (dc_memory_mb c) (sget "memory_usage_mb" md))
  else [].
(** How often a pipeline made a step; values with the last and the mean. *)
Definition count_steps (id : string) (ops : list dash_op) : nat :=
  length (filter (fun o => match o with DStep i => String.eqb id i | _ => false end) ops).
Definition summary (l : list R) : option (list R * R * R) :=
  match l with [] => None | _ => Some (l, last l 0%R, (fold_right Rplus 0 l / INR (length l))%R) end.
(** A client that connected and did not disconnect since. *)
Definition connected (sid : nat) (ops : list dash_op) : Prop :=
  exists before after, ops = before ++ DConnect sid :: after /\ ~ In (DDisconnect sid) after.

(** ** Streams *)
Definition updates_of (name : string) (ops : list bokeh_op) : list (R * R) :=
  flat_map (fun o => match o with BUpdate n x y => if String.eqb n name then [(x, y)] else [] | BAdd _ => [] end) ops.

(** The streams added to a figure, and the updates of one made when it was already there. *)
Definition added (f : nat) (ops : list jviz_op) : list string :=
  flat_map (fun o => match o with JAdd g n => if Nat.eqb g f then [n] else [] | _ => [] end) ops.
Fixpoint stream_updates (f : nat) (name : string) (there : bool) (ops : list jviz_op) : list (R * R) :=
  match ops with
  | [] => []
  | JAdd g n :: r => stream_updates f name (there || (Nat.eqb g f && String.eqb n name)) r
  | JUpdate g n y x :: r => (if there && (Nat.eqb g f && String.eqb n name) then [(x, y)] else []) ++ stream_updates f name there r
  | JCreate :: r => stream_updates f name there r
  end.
Definition is_create (o : jviz_op) : bool := match o with JCreate => true | _ => false end.

(** ** Controls *)
(** The value of a parameter: the last one given by the user since the panel that made its control. *)
Definition initial {A : Type} (name : string) (params : list (string * (string * A))) : option A :=
  match find (fun p => String.eqb (fst p) name) params with
  | Some (_, (ty, v)) => if existsb (String.eqb ty) ["float"; "int"; "bool"; "dropdown"]%string then Some v else None
  | None => None
  end.
Definition next_value {A : Type} (name : string) (now : option A) (o : control_op A) : option A :=
  match o with
  | CPanel params => match initial name params with Some v => Some v | None => now end
  | CCallback _ => now
  | CChange n v => if String.eqb n name then match now with Some _ => Some v | None => None end else now
  end.
Definition current_value {A : Type} (name : string) (ops : list (control_op A)) : option A := fold_left (next_value name) ops None.
Definition callbacks_in {A : Type} (ops : list (control_op A)) : list nat :=
  flat_map (fun o => match o with CCallback cb => [cb] | _ => [] end) ops.
Definition panels_ok {A : Type} (ops : list (control_op A)) : Prop :=
  forall params, In (CPanel params) ops -> NoDup (map fst params).
