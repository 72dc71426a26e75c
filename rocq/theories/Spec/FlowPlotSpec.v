(** Vocabulary for the data flow plots (C154). *)
From Coq Require Import String List Bool Arith ZArith Reals.
From Verif Require Import Model.FlaxOptim Model.Viz Model.FlowPlot Spec.VizSpec.
Import ListNotations.
Local Open Scope list_scope.

(** An order in which a set of names may come: each name once. *)
Definition set_order (order : list string -> list string) : Prop :=
  forall l, NoDup (order l) /\ forall x, In x (order l) <-> In x l.
(** The calls made on the tracker. *)
Definition tracker_calls (ops : list plot_op) : list tracker_op := flat_map (fun o => match o with PTrack t => [t] | _ => [] end) ops.
Definition creates (ops : list plot_op) : bool := existsb (fun o => match o with PCreate _ _ _ => true | _ => false end) ops.
Definition redraws (ops : list plot_op) : bool := existsb (fun o => match o with PUpdate => true | _ => false end) ops.
(** The same calls, whatever modules, types and kind of plot were asked for. *)
Inductive same_but_filters : plot_op -> plot_op -> Prop :=
  | same_op : forall o, same_but_filters o o
  | same_create : forall n t k n' t' k', same_but_filters (PCreate n t k) (PCreate n' t' k').
(** The curve of a module: the numbers [f] finds in its points, in order. *)
Definition curve_of {B : Type} (f : point -> option B) (m : string) (l : list point) : option (list B) :=
  match flat_map (fun p => if of_module m p then match f p with Some b => [b] | None => [] end else []) l with [] => None | x => Some x end.
(** The colors of the markers. *)
Definition has_color (ty : string) (c : color) : Prop :=
  match c with Red => ty = "input"%string | Blue => ty = "output"%string | Green => ty <> "input"%string /\ ty <> "output"%string end.
Definition point_lines (l : list text_line) : list (nat * string * string * shown_value) :=
  flat_map (fun x => match x with TPoint n m t v => [(n, m, t, v)] | _ => [] end) l.
