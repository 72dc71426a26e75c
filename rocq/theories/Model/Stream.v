(** Model of the synchronisation of data streams, /repo/src/wax/stream.py.  A generator is the list of
    the observations it yields; an observation is a timestamp (int64 nanoseconds) and a value.
    Simplifications: timestamps read from streams are not NaT; a value is one leaf (the code treats
    the leaves of an observation in parallel, with one deque per leaf); [None] is an exception. *)
From Coq Require Import ZArith List Bool.
From Verif Require Import Model.Encode.
Import ListNotations.

Section Merge.
  Context {V : Type}.
  Definition obs : Type := (Z * V)%type.
  (** An output observation: [None] is pd.NaT. *)
  Definition cell : Type := (option Z * V)%type.
  Definition real (o : obs) : cell := (Some (fst o), snd o).
  (** An output: one observation, or the content of a buffer. *)
  Inductive out := One (c : cell) | Win (l : list cell).

  (** stream.py lines 78-97 *)
  Definition timestamp_is_before_local (embed : Z -> Z) (local_timestamp secondary_timestamp : Z) : bool :=
    Z.ltb secondary_timestamp (embed local_timestamp).

  (** collections.deque(maxlen=n).append *)
  Definition deque_append (n : nat) (d : list cell) (c : cell) : list cell :=
    skipn (length (d ++ [c]) - n) (d ++ [c]).
  (** stream.py lines 256-281: missing observations are put in front *)
  Definition deque_to_list (n : nat) (fill : cell) (d : list cell) : list cell :=
    repeat fill (n - length d) ++ d.

  (** The configuration of a secondary stream: freqs, ffills, buffer_maxlen and
      buffer_dtype_init_values (lines 422-432) *)
  Record sec_cfg := SecCfg { embed : Z -> Z; ffill : bool; maxlen : option nat; default : V }.
  (** lines 602-616: the initial observation: no time, the default value of the dtype *)
  Definition init_obs (cfg : sec_cfg) : cell := (None, default cfg).

  (** lines 618-625: buffers[time_dim], given the content of its deque: tree_buffer_transform
      (236-253) or the identity *)
  Definition buffer_out (cfg : sec_cfg) (d : list cell) (c : cell) : out * list cell :=
    match maxlen cfg with
    | Some n => let d := deque_append n d c in (Win (deque_to_list n (init_obs cfg) d), d)
    | None => (One c, d)
    end.

  (** The state of a secondary stream in the loop: the pending observation (stream_obs[time_dim]) and
      what the generator still yields, or [None] once the stream is deleted; its deque; the entry
      output_values[time_dim]. *)
  Record sec_state := SecState {
    pending : option (obs * list obs); deque : list cell; stored : out }.

  (** lines 594-628, one stream.  [None]: empty generator, or a buffer of length 0 (IndexError of
      line 267). *)
  Definition sec_init (cfg : sec_cfg) (g : list obs) : option sec_state :=
    match g, maxlen cfg with
    | [], _ => None
    | _, Some 0 => None
    | o :: r, _ =>
        let '(output, d) := buffer_out cfg [] (init_obs cfg) in
        Some (SecState (Some (o, r)) d output)
    end.

  (** lines 674-689: the while loop, after the pending observation has been read *)
  Fixpoint read_loop (cfg : sec_cfg) (local_timestamp : Z) (r : list obs) (d : list cell) (output : out)
    : option (obs * list obs) * list cell * out :=
    match r with
    | [] => (None, d, output)
    | o :: r' =>
        if timestamp_is_before_local (embed cfg) local_timestamp (fst o) then
          let '(output, d) := buffer_out cfg d (real o) in
          read_loop cfg local_timestamp r' d output
        else (Some (o, r'), d, output)
    end.

  (** lines 652-708: one secondary stream at one local time: output[time_dim] and the new state *)
  Definition sec_step (cfg : sec_cfg) (st : sec_state) (local_timestamp : Z) : out * sec_state :=
    match pending st with
    | None => (stored st, st)
    | Some (o, r) =>
        let '(p, d, output) :=
          if timestamp_is_before_local (embed cfg) local_timestamp (fst o) then
            let '(output, d) := buffer_out cfg (deque st) (real o) in
            read_loop cfg local_timestamp r d output
          else (Some (o, r), deque st, stored st) in
        (output, SecState p d (if ffill cfg then output else stored st))
    end.

  (** lines 636-710: the local loop *)
  Fixpoint merge_loop (cfgs : list sec_cfg) (sts : list sec_state) (locals : list obs)
    : list (obs * list out) :=
    match locals with
    | [] => []
    | local_obs :: r =>
        let rs := map (fun cs => sec_step (fst cs) (snd cs) (fst local_obs)) (combine cfgs sts) in
        (local_obs, map fst rs) :: merge_loop cfgs (map snd rs) r
    end.

  (** lines 583-710: the first item of each generator, the local one included, is read by the
      initialisation *)
  Definition merge (local : list obs) (secs : list (sec_cfg * list obs)) : option (list (obs * list out)) :=
    match local with
    | [] => None
    | _ :: locals =>
        match mapM (fun cg => sec_init (fst cg) (snd cg)) secs with
        | None => None
        | Some sts => Some (merge_loop (map fst secs) sts locals)
        end
    end.

  (** lines 712-753: the generator of a dataset yields its first observation twice (lines 729-737,
      then 739-753); IndexError (line 730) when there is none *)
  Definition start_dataset_stream (data : list obs) : option (list obs) :=
    match data with [] => None | o :: _ => Some (o :: data) end.
End Merge.

(** lines 654-658: freqs: embed is floor_datetime, only "d" being supported *)
Definition floor_day (t : Z) : Z := match floor_datetime true t with Some f => f | None => t end.

(** *** Tracing *)

(** lines 59-75 DTYPE_INIT_VALUES of the indices (int64) *)
Definition index_default : Z := -99999.
(** lines 337-349 np_select_item with trace=True: the value is replaced by its position *)
Definition trace_obs {V : Type} (data : list (@obs V)) : list (@obs Z) :=
  map (fun io => (fst (snd io), Z.of_nat (fst io))) (combine (seq 0 (length data)) data).

(** lines 352-366 access_data on one index: jnp.where on negative indices; an index beyond the end is
    clamped by jax *)
Definition access {V : Type} (default : V) (x : list V) (idx : Z) : V :=
  if Z.ltb idx 0 then default
  else nth (Nat.min (Z.to_nat idx) (length x - 1)) x default.
(** ... on all the indices of an output.  For a window this is the code only when the data has no other
    dimension than time: see Model/Accessors.v access_data for the broadcast with more of them. *)
Definition access_out {V : Type} (default : V) (x : list V) (o : @out Z) : list V :=
  match o with
  | One c => [access default x (snd c)]
  | Win l => map (fun c => access default x (snd c)) l
  end.
(** the values of an output *)
Definition out_values {V : Type} (o : @out V) : list V :=
  match o with One c => [snd c] | Win l => map snd l end.

(** lines 222-232: variables without time dimension.  A scalar has the index [step] at each step; a
    vector of size m has at each step the index step * j for j < m. *)
Definition access_constant_scalar {V : Type} (default : V) (x : V) (step : nat) : V :=
  access default [x] (Z.of_nat step).
Definition access_constant_vector {V : Type} (default : V) (x : list V) (step : nat) : list V :=
  map (fun j => access default x (Z.of_nat (step * j))) (seq 0 (length x)).

(** *** unroll_stream: lines 284-325.  An item is the list of its leaves; the result is, for each leaf,
    the list of its values.  With skip_first the lists of the leaves are one and the same list
    ([[]] * num_leaves), to which every leaf appends.  [None]: next of an empty generator, the
    assertion on the number of leaves, or onp.stack of an empty list. *)
Definition unroll_stream {A : Type} (skip_first : bool) (items : list (list A)) : option (list (list A)) :=
  match items with
  | [] => None
  | first :: r =>
      let num_leaves := length first in
      if forallb (fun it => Nat.eqb (length it) num_leaves) r then
        if skip_first then
          if Nat.eqb num_leaves 0 then Some []
          else match r with [] => None | _ => Some (repeat (concat r) num_leaves) end
        else Some (fold_left (fun outs it => map (fun yx => fst yx ++ [snd yx]) (combine outs it)) r
                     (map (fun x => [x]) first))
      else None
  end.

(** *** get_local_time: lines 533-543; a dimension is a name, [""] is the unset default *)
From Coq Require Import String.
Definition get_local_time (local_time : string) (time_dims : list string) : option string :=
  if String.eqb local_time "" then
    match time_dims with [d] => Some d | _ => None end
  else Some local_time.
