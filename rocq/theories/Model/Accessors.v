(** Applying a module to labelled data: /repo/src/wax/accessors.py with Stream.prepare and
    Stream.trace_dataset of /repo/src/wax/stream.py.

    An array is the list of its rows (its entries along the first axis); a row is the flattened list of
    its elements.  Simplifications: the values are already encoded (the encoding of a dataset is in Model/Schema.v)
    and of the precision of jax; every exception is [None]; DataFrames have one level of index and of
    columns; an index computed by the code is never beyond the end except for the variables without time
    (where jax clamps it). *)
From Coq Require Import String ZArith List Bool Arith Reals.
From Verif Require Import Model.Tree Model.Unroll Model.Stream Model.Format Model.Float Model.Modules Model.Ewm.
Import ListNotations.
Local Open Scope list_scope.

(** A variable of a Dataset: [dv_size] is its number of elements, [dv_last] the size of its last axis,
    [dv_rows] its rows ([atleast_1d]: one row for a scalar) and [dv_default] the value of
    DTYPE_INIT_VALUES (stream.py lines 59-75) for its dtype. *)
Record dvar (A : Type) := DVar {
  dv_name : string; dv_dims : list string; dv_size : nat; dv_last : nat;
  dv_rows : list (list A); dv_default : A }.
Arguments DVar {A}. Arguments dv_name {A}. Arguments dv_dims {A}. Arguments dv_size {A}.
Arguments dv_last {A}. Arguments dv_rows {A}. Arguments dv_default {A}.

(** The options of Stream (stream.py lines 432-445).  [daily d]: freqs[d] is "d". *)
Record stream_cfg := StreamCfg {
  local_time : string; daily : string -> bool; ffills : string -> bool;
  buffer_maxlen : string -> option nat; index_fill : Z }.

(** What a module reads for a variable: one row, or several. *)
Inductive seen (A : Type) := SOne (row : list A) | SMany (rows : list (list A)).
Arguments SOne {A}. Arguments SMany {A}.

Fixpoint lookup {B : Type} (k : string) (l : list (string * B)) : option B :=
  match l with
  | [] => None
  | (k', b) :: r => if String.eqb k k' then Some b else lookup k r
  end.

Section Trace.
  Context {C : Type}.
  (** The values of a coordinate of dtype datetime64; [None] for another dtype. *)
  Variable datetimes : C -> option (list Z).

  (** stream.py lines 171-174 get_dataset_time_coords with the values read by get_time_dataset (125-137):
      every datetime64 coordinate, whatever its dims, under its own name.  (The code makes a set of the
      names; the model keeps the order of the coordinates, which has no effect on the result.) *)
  Definition time_coords (coords : list (coord C)) : list (string * list Z) :=
    flat_map (fun c => match datetimes (c_val c) with Some ts => [(c_name c, ts)] | None => [] end) coords.

  (** stream.py lines 125-137: the dataset of the positions; with trace=True (lines 335-348) and without, the
      value at position i is i. *)
  Definition positions (ts : list Z) : list (@obs Z) := trace_obs (map (fun t => (t, tt)) ts).

  (** stream.py lines 652-658 and 618-625 *)
  Definition sec_cfg_of (cfg : stream_cfg) (d : string) : @sec_cfg Z :=
    SecCfg (if daily cfg d then floor_day else fun t => t) (ffills cfg d) (buffer_maxlen cfg d) (index_fill cfg).

  (** stream.py lines 560-570: the local time and, for each time dimension, the indices at each step *)
  Definition time_index (cfg : stream_cfg) (coords : list (coord C))
    : option (string * list (string * list (@out Z))) :=
    let tcs := time_coords coords in
    match tcs with
    | [] => None
    | _ =>
      match get_local_time (local_time cfg) (map fst tcs) with
      | None => None
      | Some local =>
        match lookup local tcs with
        | None => None
        | Some ts =>
          match tcs with
          | [_] => Some (local, [(local, map (fun o => One (real o)) (positions ts))])
          | _ =>
            let others := filter (fun dt => negb (String.eqb (fst dt) local)) tcs in
            match start_dataset_stream (positions ts),
                  mapM (fun dt => option_map (fun g => (sec_cfg_of cfg (fst dt), g))
                                             (start_dataset_stream (positions (snd dt)))) others with
            | Some lstream, Some secs =>
                match merge lstream secs with
                | None => None
                | Some items =>
                    match unroll_stream false (map (fun it => One (real (fst it)) :: snd it) items) with
                    | None => None
                    | Some columns => Some (local, combine (local :: map fst others) columns)
                    end
                end
            | _, _ => None
            end
          end
        end
      end
    end.
End Trace.

Section Access.
  Context {A : Type}.
  (** The index of a variable at one step: a number or a vector. *)
  Inductive index := IOne (z : Z) | IMany (zs : list Z).
  Definition index_of_out (o : @out Z) : index :=
    match o with One c => IOne (snd c) | Win l => IMany (map snd l) end.

  (** stream.py lines 200-233 get_dataset_index, one variable.  [n] is the number of steps.  AssertionError
      when there is a time dimension which is not the first one. *)
  Definition var_index (ti : list (string * list (@out Z))) (n : nat) (v : dvar A) : option (list index) :=
    if existsb (fun d => mem_str d (map fst ti)) (dv_dims v) then
      match dv_dims v with
      | d :: _ => option_map (map index_of_out) (lookup d ti)
      | [] => None
      end
    else
      match dv_dims v with
      | [] => Some (map (fun s => IOne (Z.of_nat s)) (seq 0 n))
      | _ => Some (map (fun s => IMany (map (fun j => Z.of_nat (s * j)) (seq 0 (dv_size v)))) (seq 0 n))
      end.

  (** x[z] in jax: a negative index counts from the end, the result is clamped to the array *)
  Definition gather (rows : list (list A)) (z : Z) : list A :=
    let n := Z.of_nat (length rows) in
    let z := if Z.ltb z 0 then (z + n)%Z else z in
    nth (Z.to_nat (Z.max 0 (Z.min z (n - 1)))) rows [].

  Definition masked (d : A) (m : Z) (a : A) : A := if Z.ltb m 0 then d else a.

  (** stream.py lines 351-366 access_data: jnp.where(step_idx < 0, default, x[step_idx]).  For a vector of
      [k] indices the condition, of shape (k,), is broadcast against x[step_idx], of shape (k, ..., b): it is
      compared to the last axis of the rows.  [None]: shapes which do not broadcast. *)
  Definition access_data (v : dvar A) (i : index) : option (seen A) :=
    let d := dv_default v in
    let rows := dv_rows v in
    match i with
    | IOne z => Some (SOne (map (masked d z) (gather rows z)))
    | IMany zs =>
        if length (dv_dims v) <=? 1 then Some (SMany (map (fun z => map (masked d z) (gather rows z)) zs))
        else
          let k := length zs in
          let b := dv_last v in
          if k =? b then
            Some (SMany (map (fun z => map (fun pa => masked d (nth (fst pa mod b) zs 0%Z) (snd pa))
                                           (combine (seq 0 (length (gather rows z))) (gather rows z))) zs))
          else if k =? 1 then Some (SMany (map (fun z => map (masked d (nth 0 zs 0%Z)) (gather rows z)) zs))
          else if b =? 1 then
            Some (SMany (map (fun z => flat_map (fun a => map (fun m => masked d m a) zs) (gather rows z)) zs))
          else None
    end.

  (** stream.py lines 369-378 tree_access_data at one step *)
  Definition view_at (vars : list (dvar A)) (indices : list (list index)) (step : nat)
    : option (list (string * seen A)) :=
    mapM (fun vi => match nth_error (snd vi) step with
                    | Some i => option_map (fun s => (dv_name (fst vi), s)) (access_data (fst vi) i)
                    | None => None
                    end) (combine vars indices).
End Access.

Section Apply.
  Context {K P S A C Y : Type} (split : K -> K * K) (datetimes : C -> option (list Z)).
  Let view : Type := list (string * seen A).

  (** stream.py lines 485-531 prepare and 545-581 trace_dataset: what the module reads at each step *)
  Definition prepare (cfg : stream_cfg) (vars : list (dvar A)) (coords : list (coord C)) : option (list view) :=
    match time_index datetimes cfg coords with
    | None => None
    | Some (local, ti) =>
        match lookup local ti with
        | None => None
        | Some steps =>
            let n := length steps in
            match mapM (var_index ti n) vars with
            | None => None
            | Some indices => mapM (view_at vars indices) (seq 0 n)
            end
        end
    end.

  (** stream.py lines 525-529: transform_dataset, a function of the step *)
  Definition transform_dataset (views : list view) (module : transformed K P S view Y)
    : transformed K P S nat Y :=
    @Transformed K P S nat Y
      (fun rng step => t_init module rng (nth step views []))
      (fun p s rng step => t_apply module p s rng (nth step views [])).

  (** accessors.py lines 65-74 (= 129-136, 208-215, 285-291): init always runs, params and state replace
      its results when given *)
  Definition stream_apply (cfg : stream_cfg) (vars : list (dvar A)) (coords : list (coord C))
    (module : transformed K P S view Y) (skip_first : bool) (rng : option K)
    (params : option P) (state : option S) : option (list Y * S) :=
    match prepare cfg vars coords with
    | None => None
    | Some views =>
        unroll split (transform_dataset views module) skip_first rng params state (seq 0 (length views))
    end.
End Apply.

(** accessors.py lines 125-127: the module of an array, as a module of the dataset {"dataarray": array} *)
Definition on_array {K P S A Y : Type} (module : transformed K P S (seen A) Y)
  : transformed K P S (list (string * seen A)) Y :=
  let get v := match lookup "dataarray"%string v with Some s => s | None => SOne [] end in
  @Transformed K P S (list (string * seen A)) Y
    (fun rng v => t_init module rng (get v))
    (fun p s rng v => t_apply module p s rng (get v)).

(** The outputs of lax.scan: [shapes] are the shapes of the outputs of the module at one step, [ys] the
    leaves at each step; each leaf is stacked along a new first axis. *)
Definition stack_outputs {A : Type} (shapes : tree (list nat)) (ys : list (list A))
  : option (tree (ndarray (list A))) :=
  let stacked := fold_left append_leaves ys (map (fun _ => []) (tree_leaves shapes)) in
  tree_unflatten (tree_def shapes)
    (map (fun sl => NdArray (length ys :: fst sl) (snd sl)) (combine (tree_leaves shapes) stacked)).

(** A DataArray given to the accessor. *)
Record array_in (A C : Type) := ArrayIn {
  in_dims : list string; in_size : nat; in_last : nat; in_rows : list (list A); in_default : A;
  in_coords : list (coord C) }.
Arguments ArrayIn {A C}. Arguments in_dims {A C}. Arguments in_size {A C}. Arguments in_last {A C}.
Arguments in_rows {A C}. Arguments in_default {A C}. Arguments in_coords {A C}.

(** accessors.py lines 121-123: xr.Dataset({"dataarray": dataarray}) *)
Definition as_dataset {A C : Type} (a : array_in A C) : list (dvar A) :=
  [DVar "dataarray"%string (in_dims a) (in_size a) (in_last a) (in_rows a) (in_default a)].

Section Containers.
  Context {K P S A B C : Type} (split : K -> K * K) (datetimes : C -> option (list Z)).
  Variables (cfg : stream_cfg) (a : array_in A C) (module : transformed K P S (seen A) (list B))
    (shapes : tree (list nat)) (skip_first : bool) (rng : option K) (params : option P) (state : option S).

  Let run_array : option (list (list B) * S) :=
    stream_apply split datetimes cfg (as_dataset a) (in_coords a) (on_array module) skip_first rng params state.

  (** accessors.py lines 99-155 StreamDataArray.apply with format_outputs and return_state; format_dims is
      dataarray.dims by default (lines 140-141) *)
  Definition dataarray_apply (format_dims : list string) : option (tree (dataarray (list B) C) * S) :=
    match run_array with
    | None => None
    | Some (ys, sF) =>
        match stack_outputs shapes ys with
        | None => None
        | Some outputs =>
            option_map (fun r => (r, sF)) (stream_dataarray_format (in_coords a) outputs format_dims)
        end
    end.

  (** the fallback on the first dim, as in [stream_dataarray_format] *)
  Definition with_fallback {R : Type} (format : list string -> option R) (dims : list string) : option R :=
    match format dims with
    | Some r => Some r
    | None => match dims with [] => None | d :: _ => format [d] end
    end.

  (** accessors.py lines 165-244 StreamDataFrame.apply, lines 216-239 for the format *)
  Definition dataframe_apply (dim_name : nat -> string) (format_dims : list string)
    : option (tree (pandas (list B) C) * S) :=
    match run_array with
    | None => None
    | Some (ys, sF) =>
        match stack_outputs shapes ys with
        | None => None
        | Some outputs =>
            option_map (fun r => (r, sF))
              (with_fallback (fun dims => format_dataframe dim_name (in_coords a) outputs (names_tree dims) 1)
                 format_dims)
        end
    end.

  (** accessors.py lines 254-307 StreamSeries.apply, lines 293-303 for the format *)
  Definition series_apply (format_dims : list string) : option (tree (pandas (list B) C) * S) :=
    match run_array with
    | None => None
    | Some (ys, sF) =>
        match stack_outputs shapes ys with
        | None => None
        | Some outputs =>
            option_map (fun r => (r, sF))
              (with_fallback (fun dims => format_series (in_coords a) outputs (names_tree dims)) format_dims)
        end
    end.
End Containers.

(** accessors.py lines 41-88 StreamDataset.apply with format_outputs and return_state.  format_dims is [()] by
    default (line 45), and the fallback [format_dims[0]] (lines 79-80) raises for it.  The last step of
    format_dataset (format.py lines 105-108), which turns a dict of arrays into a Dataset, is not modelled: the
    arrays are returned as they are before it. *)
Definition dataset_apply {K P S A B C : Type} (split : K -> K * K) (datetimes : C -> option (list Z)) (cfg : stream_cfg)
  (vars : list (dvar A)) (coords : list (coord C)) (module : transformed K P S (list (string * seen A)) (list B))
  (shapes : tree (list nat)) (skip_first : bool) (rng : option K) (params : option P) (state : option S)
  (format_dims : list string) : option (tree (dataarray (list B) C) * S) :=
  match stream_apply split datetimes cfg vars coords module skip_first rng params state with
  | None => None
  | Some (ys, sF) =>
      match stack_outputs shapes ys with
      | None => None
      | Some outputs => option_map (fun r => (r, sF)) (stream_dataarray_format coords outputs format_dims)
      end
  end.

(** *** accessor.ewm(...).mean(): accessors.py lines 310-337.  The stream has the default options. *)
Definition default_cfg : stream_cfg :=
  StreamCfg "" (fun _ => false) (fun _ => false) (fun _ => None) index_default.

(** EWMA (modules/ewma.py, see Model/Ewm.v) on a row, element by element; one leaf is returned. *)
Definition ewma_rows (fmax_ : R) (cfg : ewma_cfg)
  : transformed unit unit (list ewma_state) (seen fl) (list (list fl)) :=
  let row x := match x with SOne r => r | SMany rs => concat rs end in
  hk_module (fun x => map (fun _ => ewma_init cfg) (row x))
    (fun ss x => let '(y, ss') := ewma_vec fmax_ cfg ss (row x) in ([y], ss')).

(** lines 324-337: the arguments of ewm are those of EWMA (com and alpha: exactly one, Model/Ewm.v com_of);
    [shape] is the shape of a row. *)
Definition ewm_dataarray {C : Type} (datetimes : C -> option (list Z)) (fmax_ : R)
  (com_ alpha : option R) (min_periods_ : Z) (adjust_ : adjust_mode) (ignore_na_ : bool) (initial_value_ : fl)
  (a : array_in fl C) (shape : list nat) : option (tree (dataarray (list (list fl)) C)) :=
  match com_of com_ alpha with
  | None => None
  | Some c =>
      option_map fst (dataarray_apply (fun k : unit => (k, k)) datetimes default_cfg a
        (ewma_rows fmax_ (EwmaCfg c min_periods_ adjust_ ignore_na_ initial_value_)) (Leaf shape)
        false None None None (in_dims a))
  end.
Definition ewm_dataframe {C : Type} (datetimes : C -> option (list Z)) (fmax_ : R)
  (com_ alpha : option R) (min_periods_ : Z) (adjust_ : adjust_mode) (ignore_na_ : bool) (initial_value_ : fl)
  (dim_name : nat -> string) (a : array_in fl C) (shape : list nat) : option (tree (pandas (list (list fl)) C)) :=
  match com_of com_ alpha with
  | None => None
  | Some c =>
      option_map fst (dataframe_apply (fun k : unit => (k, k)) datetimes default_cfg a
        (ewma_rows fmax_ (EwmaCfg c min_periods_ adjust_ ignore_na_ initial_value_)) (Leaf shape)
        false None None None dim_name (in_dims a))
  end.
Definition ewm_series {C : Type} (datetimes : C -> option (list Z)) (fmax_ : R)
  (com_ alpha : option R) (min_periods_ : Z) (adjust_ : adjust_mode) (ignore_na_ : bool) (initial_value_ : fl)
  (a : array_in fl C) : option (tree (pandas (list (list fl)) C)) :=
  match com_of com_ alpha with
  | None => None
  | Some c =>
      option_map fst (series_apply (fun k : unit => (k, k)) datetimes default_cfg a
        (ewma_rows fmax_ (EwmaCfg c min_periods_ adjust_ ignore_na_ initial_value_)) (Leaf [])
        false None None None (in_dims a))
  end.
