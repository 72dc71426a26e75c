(** Streaming a dataset by its time axes: /repo/src/wax/stream.py get_dataset_time_coords, split_dataset_from_time_dims,
    np_select_item, start_dataset_stream, start_dataset_streams, then Stream.merge (Model/Stream.v).
    Simplifications: the coordinates are those of dimensions (a Dataset may also have coordinates which are not
    dimensions); a variable is known by its dimensions and its entries along its first axis ([var[i]] of numpy);
    a generator is the list of what it yields, [None] if it raises before its end. *)
From Coq Require Import String ZArith List Bool Arith.
From Verif Require Import Model.Encode Model.Stream.
Import ListNotations.
Local Open Scope list_scope.

Section Split.
  Context {V : Type}.
  (** A data variable: name, dims, and its entries along the first axis *)
  Record svar := SVar { sv_name : string; sv_dims : list string; sv_slices : list V }.
  (** A Dataset: its coordinates ([Some] times when their dtype is datetime64) and its data variables *)
  Record sdata := SData { sd_coords : list (string * option (list Z)); sd_vars : list svar }.

  (** stream.py lines 171-174: get_dataset_time_coords, with the values of the coordinates; AssertionError if there is none *)
  Definition get_dataset_time_coords (d : sdata) : option (list (string * list Z)) :=
    match flat_map (fun c => match snd c with Some ts => [(fst c, ts)] | None => [] end) (sd_coords d) with
    | [] => None
    | l => Some l
    end.

  (** A dataset of the result: the times and the variables *)
  Definition part : Type := (list Z * list svar)%type.

  (** line 188: time_coords.intersection(set(var.dims)) *)
  Definition var_time_dims (tc : list string) (v : svar) : list string :=
    filter (fun t => existsb (String.eqb t) (sv_dims v)) tc.

  (** line 195: datasets[var_time_dim][var_dim] = var *)
  Definition add_var (t : string) (v : svar) (ps : list (string * part)) : list (string * part) :=
    map (fun p => if String.eqb (fst p) t then (fst p, (fst (snd p), snd (snd p) ++ [v])) else p) ps.

  (** lines 187-195: AssertionError on a variable with several time dimensions *)
  Fixpoint fill_parts (tc : list string) (vs : list svar) (ps : list (string * part)) : option (list (string * part)) :=
    match vs with
    | [] => Some ps
    | v :: r =>
        match var_time_dims tc v with
        | [] => fill_parts tc r ps
        | [t] => fill_parts tc r (add_var t v ps)
        | _ => None
        end
    end.

  (** lines 177-197 *)
  Definition split_dataset_from_time_dims (d : sdata) : option (list (string * part)) :=
    match get_dataset_time_coords d with
    | None => None
    | Some tc => fill_parts (map fst tc) (sd_vars d) (map (fun c => (fst c, (snd c, []))) tc)
    end.

  (** What is yielded for a variable: its entry, or with trace its position *)
  Inductive item := Pos (i : nat) | Slice (x : V).

  (** lines 329-348: dataset_to_numpy then np_select_item; IndexError beyond the end of the first axis *)
  Definition np_select_item (vs : list svar) (i : nat) (trace : bool) : option (list (string * item)) :=
    if trace then Some (map (fun v => (sv_name v, Pos i)) vs)
    else mapM (fun v => option_map (fun x => (sv_name v, Slice x)) (nth_error (sv_slices v) i)) vs.

  (** lines 716-753: the first observation is yielded a first time before the loop *)
  Definition start_part_stream (trace : bool) (p : part) : option (list (Z * list (string * item))) :=
    match fst p with
    | [] => None
    | t0 :: _ =>
        mapM (fun it => option_map (pair (snd it)) (np_select_item (snd p) (fst it) trace))
             ((0, t0) :: combine (seq 0 (length (fst p))) (fst p))
    end.

  (** lines 755-770 *)
  Definition start_dataset_streams (trace : bool) (ps : list (string * part))
    : option (list (string * list (Z * list (string * item)))) :=
    mapM (fun p => option_map (pair (fst p)) (start_part_stream trace (snd p))) ps.

  (** The configuration of a Stream for one secondary time axis: freqs, ffills, buffer_maxlen; and the default of a
      variable (of the dtype of its values) *)
  Record axis_cfg := AxisCfg { ax_embed : Z -> Z; ax_ffill : bool; ax_maxlen : option nat }.

  Definition find_part {A : Type} (k : string) (l : list (string * A)) : option A :=
    option_map snd (find (fun p => String.eqb (fst p) k) l).

  (** stream.merge(stream.start_dataset_streams(split_dataset_from_time_dims(dataset))), with the local time axis
      given: one list per local time, the local observation and what is shown of each other axis, with its name *)
  Definition merge_dataset (trace : bool) (local : string) (cfg : string -> axis_cfg) (dflt : svar -> item)
    (d : sdata) : option (list ((Z * list (string * item)) * list (string * @out (list (string * item))))) :=
    match split_dataset_from_time_dims d with
    | None => None
    | Some ps =>
        match start_dataset_streams trace ps with
        | None => None
        | Some streams =>
            match find_part local streams with
            | None => None
            | Some ls =>
                let others := filter (fun s => negb (String.eqb (fst s) local)) streams in
                let sec := fun s : string * list (Z * list (string * item)) =>
                  let vs := match find_part (fst s) ps with Some p => snd p | None => [] end in
                  (SecCfg (ax_embed (cfg (fst s))) (ax_ffill (cfg (fst s))) (ax_maxlen (cfg (fst s)))
                     (map (fun v => (sv_name v, dflt v)) vs), snd s) in
                option_map (map (fun it => (fst it, combine (map fst others) (snd it))))
                  (merge ls (map sec others))
            end
        end
    end.
End Split.
