(** Vocabulary for C138. *)
From Coq Require Import String Ascii List Bool.
From Verif Require Import Model.Unroll Model.FlaxOptim Model.Dynamics Model.EventNames.
Import ListNotations.

(** a frame as haiku makes them: a dictionary of dictionaries, names of states without "/" *)
Definition no_slash (n : string) : Prop := ~ In "/"%char (list_ascii_of_string n).
Definition well_formed {V} (fr : frame V) : Prop :=
  NoDup (map fst fr) /\
  Forall (fun mb : string * list (string * V) => NoDup (map fst (snd mb)) /\ Forall no_slash (map fst (snd mb))) fr.
(** the two frames have the same states *)
Definition same_states {V} (fr fr' : frame V) : Prop :=
  forall m n, lookup fr m n = None <-> lookup fr' m n = None.
(** successive calls *)
Fixpoint frame_run {V E} (step : E -> frame V -> option (V * frame V)) (es : list E) (fr : frame V) : option (list V * frame V) :=
  match es with
  | [] => Some ([], fr)
  | e :: r => match step e fr with
              | None => None
              | Some (o, fr1) => match frame_run step r fr1 with Some (os, fr2) => Some (o :: os, fr2) | None => None end
              end
  end.

(** a module "counter" with a state "count" *)
Definition counter_call (x : unit) (fr : frame nat) : option (nat * frame nat) :=
  let n := match lookup fr "counter" "count" with Some n => n | None => 0 end in
  Some (S n, put "counter" "count" (S n) fr).
Definition count_of (fr : frame nat) : nat := match lookup fr "counter" "count" with Some n => n | None => 0 end.
(** UpdateOnEvent(UpdateOnEvent(counter)), with the names haiku gives; the input is (event of the outer, event of the inner) *)
Definition inner (x : bool) (fr : frame nat) : option (nat * frame nat) :=
  update_on_event_named "update_on_event" "counter" [] (fun _ => 0) counter_call x tt fr.
Definition nested (ev : bool * bool) (fr : frame nat) : option (nat * frame nat) :=
  update_on_event_named "update_on_event_1" "update_on_event" [] (fun _ => 0) inner (fst ev) (snd ev) fr.
Definition nested_start (n : nat) : frame nat :=
  [("counter", [("count", n)]); ("update_on_event", [("prev_output", 0)]); ("update_on_event_1", [("prev_output", 0)])]%string.

(** successive calls of the UpdateOnEvent of Model/Dynamics.v around the module [f], which owns its state *)
Definition anon_wrapped {S X V} (s0 : S) (f : S -> X -> V * S) : transformed unit unit S X V :=
  Transformed (fun _ _ => (tt, s0)) (fun _ s _ x => f s x).
Fixpoint anon_run {S X V} (full : V -> V) (s0 : S) (f : S -> X -> V * S) (es : list (bool * X)) (st : V * S) : list V * (V * S) :=
  match es with
  | [] => ([], st)
  | e :: r => let '(o, st1) := t_apply (update_on_event full (anon_wrapped s0 f)) tt st None e in
              let '(os, st2) := anon_run full s0 f r st1 in (o :: os, st2)
  end.
