(** Vocabulary for the panels of the dashboards and the interactive pipeline graph (C150-C151). *)
From Coq Require Import String List Bool Arith Reals.
From Verif Require Import Model.Float Model.Viz Model.Graph Spec.VizSpec.
Import ListNotations.
Local Open Scope list_scope.

(** A list without its repetitions: the first occurrences, in order. *)
Fixpoint distinct (l : list string) : list string :=
  match l with [] => [] | x :: r => x :: filter (fun y => negb (String.eqb x y)) (distinct r) end.
(** The step and the value of each point whose value is a number. *)
Fixpoint numbers (l : list point) : list (nat * R) :=
  match l with
  | [] => []
  | p :: r => match pt_value p with VNum x => (pt_step p, x) :: numbers r | _ => numbers r end
  end.
Definition has_number (p : point) : bool := match pt_value p with VNum _ => true | _ => false end.
(** Whether [v] is in [[a, b)], or [[a, b]] for the last cell. *)
Definition in_cell (final : bool) (a b v : R) : bool :=
  if Rle_dec a v then (if Rlt_dec v b then true else if final then (if Req_EM_T v b then true else false) else false) else false.
(** How many steps a history of calls makes. *)
Definition steps_made (ops : list tracker_op) : nat := length (filter is_step ops).
(** The records whose values are all arrays, as those of jax are. *)
Definition only_arrays (ops : list tracker_op) : Prop :=
  forall now name ty v md, In (TRecord now name ty v md) ops -> exists shape data, v = VArray shape data.

(** The edges between the nodes of a graph. *)
Definition linked (g : graph) (a b : string) : Prop := exists e, In e (g_edges g) /\ e_source e = a /\ e_target e = b.
(** [edges] cut an interval into [n] parts of the same width which hold the values: from the least to the greatest, or,
    when they are all the same, half a unit on each side. *)
Definition regular_cells (n : nat) (edges : list R) (vs : list R) : Prop :=
  length edges = n + 1 /\ (nth 0 edges 0 < nth n edges 0)%R /\
  (forall i, i <= n -> nth i edges 0%R = (nth 0 edges 0 + INR i * ((nth n edges 0 - nth 0 edges 0) / INR n))%R) /\
  (forall v, In v vs -> (nth 0 edges 0 <= v <= nth n edges 0)%R) /\
  ((exists a b, In a vs /\ In b vs /\ a <> b) -> In (nth 0 edges 0%R) vs /\ In (nth n edges 0%R) vs) /\
  (forall c, (forall v, In v vs -> v = c) -> nth 0 edges 0%R = (c - / 2)%R /\ nth n edges 0%R = (c + / 2)%R).
