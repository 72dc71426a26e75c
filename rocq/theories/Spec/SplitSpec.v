(** Vocabulary of the streaming of datasets by time axis (C126). *)
From Coq Require Import String ZArith List Bool.
From Verif Require Import Model.Stream Model.Split.
Import ListNotations.
Local Open Scope list_scope.

(** [k] is a time axis of the dataset, with the times [ts]. *)
Definition axis {V} (d : @sdata V) (k : string) (ts : list Z) : Prop := In (k, Some ts) (sd_coords d).
(** The variables of the dataset which have the dimension [k], in order. *)
Definition vars_along {V} (d : @sdata V) (k : string) : list (@svar V) :=
  filter (fun v => existsb (String.eqb k) (sv_dims v)) (sd_vars d).
(** No variable has two time axes. *)
Definition one_axis_each {V} (d : @sdata V) : Prop :=
  forall v k k' ts ts', In v (sd_vars d) -> axis d k ts -> axis d k' ts' -> In k (sv_dims v) -> In k' (sv_dims v) -> k = k'.
(** The time axis of a variable is its first dimension, with one entry per time. *)
Definition time_first {V} (d : @sdata V) : Prop :=
  forall v k ts, In v (sd_vars d) -> axis d k ts -> In k (sv_dims v) ->
    hd_error (sv_dims v) = Some k /\ List.length (sv_slices v) = List.length ts.
(** Times in order. *)
Definition in_order (ts : list Z) : Prop :=
  forall i j a b, i < j -> nth_error ts i = Some a -> nth_error ts j = Some b -> (a <= b)%Z.
(** [o] gives, under its name, the entry at position [i] of each of the variables [vs]. *)
Definition entries_at {V} (vs : list (@svar V)) (i : nat) (o : list (string * @item V)) : Prop :=
  Forall2 (fun v e => exists x, nth_error (sv_slices v) i = Some x /\ e = (sv_name v, Slice x)) vs o.
(** The value under a key. *)
Definition value_of {A} (k : string) (l : list (string * A)) (a : A) : Prop :=
  exists l1 l2, l = l1 ++ (k, a) :: l2 /\ ~ In k (map fst l1).
(** [i] is the last position whose time satisfies [p]. *)
Definition last_position (p : Z -> Prop) (ts : list Z) (i : nat) (t : Z) : Prop :=
  nth_error ts i = Some t /\ p t /\ forall i' t', nth_error ts i' = Some t' -> p t' -> i' <= i.
(** What is shown of the variables [vs] of an axis of times [ts]: their entries at the last time satisfying [p], with
    that time, or no time and the default values when there is none. *)
Definition shows {V} (p : Z -> Prop) (ts : list Z) (vs : list (@svar V)) (dflt : @svar V -> @item V)
  (c : @cell (list (string * @item V))) : Prop :=
  (exists i t o, last_position p ts i t /\ entries_at vs i o /\ c = (Some t, o)) \/
  ((forall t, In t ts -> ~ p t) /\ c = (None, map (fun v => (sv_name v, dflt v)) vs)).
