(** Vocabulary for modules applied to labelled data. *)
From Coq Require Import String ZArith List.
From Verif Require Import Model.Tree Model.Format Model.Stream Model.Accessors Spec.FormatSpec.
Import ListNotations.
Local Open Scope list_scope.

(** Among [coords] there is one time coordinate, named [time], of values [ts]. *)
Definition only_time {C : Type} (datetimes : C -> option (list Z)) (coords : list (coord C))
  (time : string) (ts : list Z) : Prop :=
  exists before c after, coords = before ++ c :: after /\ c_name c = time /\ datetimes (c_val c) = Some ts /\
    forall c', In c' (before ++ after) -> datetimes (c_val c') = None.

(** The coordinates of an array of dims [dims], where [size d] is the size of the dimension d: each
    coordinate named as a dimension is along it. *)
Definition coords_of_dims {C : Type} (size : string -> nat) (dims : list string) (coords : list (coord C)) : Prop :=
  forall c, In c coords -> In (c_name c) dims -> c_dims c = [c_name c] /\ c_shape c = [size (c_name c)].

(** [outputs] stacks the outputs [ys] of the steps: same structure as the output of one step, one more
    first axis, and the i-th leaf holds the i-th leaves of the steps, in order. *)
Definition stacked {B : Type} (shapes : tree (list nat)) (ys : list (list B)) (outputs : tree (ndarray (list B))) : Prop :=
  same_structure shapes outputs /\
  forall i a, nth_error (tree_leaves outputs) i = Some a ->
    (exists s, nth_error (tree_leaves shapes) i = Some s /\ nd_shape a = length ys :: s) /\
    map Some (nd_data a) = map (fun y => nth_error y i) ys.

(** The column j of a list of rows. *)
Definition is_column {A : Type} (j : nat) (rows : list (list A)) (col : list A) : Prop :=
  map Some col = map (fun r => nth_error r j) rows.

(** Times in non-decreasing order. *)
Definition in_order (ts : list Z) : Prop :=
  forall i j a b, i < j -> nth_error ts i = Some a -> nth_error ts j = Some b -> (a <= b)%Z.

(** There is a time coordinate named [d], of values [ts]. *)
Definition time_axis {C : Type} (datetimes : C -> option (list Z)) (coords : list (coord C))
  (d : string) (ts : list Z) : Prop :=
  exists c, In c coords /\ c_name c = d /\ datetimes (c_val c) = Some ts.

(** At step [t] the module reads [s] for the variable number [i]. *)
Definition reads {A : Type} (views : list (list (string * seen A))) (t i : nat) (s : seen A) : Prop :=
  exists view name, nth_error views t = Some view /\ nth_error view i = Some (name, s).

(** The rows of a variable with their times. *)
Definition timed (ts : list Z) {A : Type} (rows : list (list A)) : list (Z * list A) := combine ts rows.

(** The frequency at which the local time is seen by the time axis [d]. *)
Definition embedding (cfg : stream_cfg) (d : string) (T : Z) : Z :=
  if daily cfg d then Model.Stream.floor_day T else T.

(** *** Two datasets with the same past.  [known d] is the number of the first entries along the time
    axis [d] which the two have in common. *)
Definition same_known_times {C : Type} (datetimes : C -> option (list Z)) (known : string -> nat)
  (coords coords' : list (coord C)) : Prop :=
  Forall2 (fun c c' => c_name c = c_name c' /\
    match datetimes (c_val c), datetimes (c_val c') with
    | None, None => True
    | Some ts, Some ts' => firstn (known (c_name c)) ts = firstn (known (c_name c)) ts'
    | _, _ => False
    end) coords coords'.
Definition same_known_rows {C A : Type} (datetimes : C -> option (list Z)) (known : string -> nat)
  (coords : list (coord C)) (v v' : dvar A) : Prop :=
  dv_name v = dv_name v' /\ dv_dims v = dv_dims v' /\ dv_default v = dv_default v' /\
  (exists w, Forall (fun r => length r = w) (dv_rows v ++ dv_rows v')) /\
  (forall d ts, hd_error (dv_dims v) = Some d -> time_axis datetimes coords d ts ->
     firstn (known d) (dv_rows v) = firstn (known d) (dv_rows v')) /\
  ((forall d ts, In d (dv_dims v) -> ~ time_axis datetimes coords d ts) ->
     dv_rows v = dv_rows v' /\ dv_size v = dv_size v' /\ dv_last v = dv_last v').
(** What is not known is not before the times [Ts], as the axis [d] sees them. *)
Definition unknown_is_later {C : Type} (datetimes : C -> option (list Z)) (cfg : stream_cfg)
  (known : string -> nat) (local : string) (Ts : list Z) (coords : list (coord C)) : Prop :=
  forall d ts T t, time_axis datetimes coords d ts -> d <> local -> In T Ts -> In t (skipn (known d) ts) ->
    (embedding cfg d T <= t)%Z.
(** The rows of a variable along a time axis are as many as the times. *)
Definition rows_match_times {C A : Type} (datetimes : C -> option (list Z)) (coords : list (coord C)) (v : dvar A) : Prop :=
  forall d ts, hd_error (dv_dims v) = Some d -> time_axis datetimes coords d ts -> length (dv_rows v) = length ts.

(** A variable which modules can read: along one time axis, its first dimension, and then not buffered or
    with no other dimension; or without time, with at most one dimension. *)
Definition readable {C A : Type} (datetimes : C -> option (list Z)) (cfg : stream_cfg) (local : string)
  (coords : list (coord C)) (v : dvar A) : Prop :=
  (exists d rest ts, dv_dims v = d :: rest /\ time_axis datetimes coords d ts /\
     (d = local \/ buffer_maxlen cfg d = None \/ rest = [])) \/
  ((forall d ts, In d (dv_dims v) -> ~ time_axis datetimes coords d ts) /\ length (dv_dims v) <= 1).
