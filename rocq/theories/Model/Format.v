(** Labelling of arrays: /repo/src/wax/format.py and the formatting part of /repo/src/wax/accessors.py.

    Simplifications: the contents of arrays and coordinates are opaque ([V], [C]); dictionaries keep only
    their children (see Model/Tree.v), so "same treedef" is "same nesting"; every exception is [None];
    pandas containers are described by the dimensions of their index and of their columns. *)
From Coq Require Import String List Bool Arith.
From Verif Require Import Model.Tree.
Import ListNotations.
Local Open Scope list_scope.

(** A numpy array: its shape and its contents. *)
Record ndarray (V : Type) := NdArray { nd_shape : list nat; nd_data : V }.
Arguments NdArray {V} nd_shape nd_data.
Arguments nd_shape {V} n.
Arguments nd_data {V} n.

(** One entry of [dataset.coords]. *)
Record coord (C : Type) := Coord { c_name : string; c_dims : list string; c_shape : list nat; c_val : C }.
Arguments Coord {C} c_name c_dims c_shape c_val.
Arguments c_name {C} c.
Arguments c_dims {C} c.
Arguments c_shape {C} c.
Arguments c_val {C} c.

(** A data variable of a Dataset: name, dims and shape. *)
Record variable := Var { v_name : string; v_dims : list string; v_shape : list nat }.
Record dataset (C : Type) := Dataset { ds_vars : list variable; ds_coords : list (coord C) }.
Arguments Dataset {C} ds_vars ds_coords.
Arguments ds_vars {C} d.
Arguments ds_coords {C} d.

(** What [format_dims] may hold at a leaf of the pytree: a name (str) or an array of names. *)
Inductive dims_leaf := DName (s : string) | DArray (l : list string).

(** The labelled array. *)
Record dataarray (V C : Type) := DataArray { da_data : ndarray V; da_dims : list string; da_coords : list (coord C) }.
Arguments DataArray {V C} da_data da_dims da_coords.
Arguments da_data {V C} d.
Arguments da_dims {V C} d.
Arguments da_coords {V C} d.

(** pandas: a Series is indexed by [index], a DataFrame has [columns] too. *)
Inductive pandas (V C : Type) :=
| Series (da : dataarray V C) (index : list string)
| Frame (da : dataarray V C) (index columns : list string).
Arguments Series {V C} da index.
Arguments Frame {V C} da index columns.

Fixpoint mem_str (s : string) (l : list string) : bool :=
  match l with [] => false | a :: r => String.eqb s a || mem_str s r end.

(** Python's [in] on a str is the substring test. *)
Definition substring_of (s t : string) : bool :=
  match String.index 0 s t with Some _ => true | None => false end.

(** [dims] as a list of names: xarray takes a str as one dimension. *)
Definition dims_names (d : dims_leaf) : list string :=
  match d with DName s => [s] | DArray l => l end.
(** [ref_dim in dims], format.py line 29. *)
Definition dims_in (s : string) (d : dims_leaf) : bool :=
  match d with DName t => substring_of s t | DArray l => mem_str s l end.

Fixpoint nat_list_eqb (a b : list nat) : bool :=
  match a, b with
  | [], [] => true
  | x :: a', y :: b' => Nat.eqb x y && nat_list_eqb a' b'
  | _, _ => false
  end.

(** The size of dimension [d] of an array of dims [dims] and shape [shape]. *)
Fixpoint size_of (d : string) (dims : list string) (shape : list nat) : option nat :=
  match dims, shape with
  | e :: dims', n :: shape' => if String.eqb d e then Some n else size_of d dims' shape'
  | _, _ => None
  end.

(** xr.DataArray accepts a coordinate when its dims are among the dims, with the same sizes. *)
Definition coord_fits {C} (dims : list string) (shape : list nat) (c : coord C) : bool :=
  Nat.eqb (length (c_dims c)) (length (c_shape c)) &&
  forallb (fun '(d, n) => match size_of d dims shape with Some m => Nat.eqb n m | None => false end)
          (combine (c_dims c) (c_shape c)).

(** [_to_dataarray], format.py lines 28-40.  xr.DataArray raises ValueError on a wrong number of dims or on a
    coordinate which does not fit.  Not modelled: dims with duplicates. *)
Definition to_dataarray {V C} (ref_coords : list (coord C)) (a : ndarray V) (dims : dims_leaf)
  : option (dataarray V C) :=
  let coords := filter (fun c => dims_in (c_name c) dims) ref_coords in
  let names := dims_names dims in
  if Nat.eqb (length names) (length (nd_shape a)) && forallb (coord_fits names (nd_shape a)) coords
  then Some (DataArray a names coords)
  else None.

(** [_to_dataframe], format.py lines 43-52: one dimension gives a Series, two a DataFrame, more a DataFrame
    whose columns are the levels from [index_nlevels] on; unstacking no level (pandas reshape.py
    _unstack_multiple, clocs empty) returns the Series itself.  A 0-dimensional array cannot be a Series
    (DataArray.to_series raises ValueError).  Not modelled: the order in which unstack sorts the labels,
    and index_nlevels = 0 with three or more dimensions. *)
Definition to_dataframe {V C} (ref_coords : list (coord C)) (a : ndarray V) (dims : dims_leaf)
  (index_nlevels : nat) : option (pandas V C) :=
  match to_dataarray ref_coords a dims with
  | None => None
  | Some da =>
      match da_dims da with
      | [] => None
      | [d] => Some (Series da [d])
      | [d; e] => Some (Frame da [d] [e])
      | l => Some (if Nat.leb (length l) index_nlevels then Series da l
                   else Frame da (firstn index_nlevels l) (skipn index_nlevels l))
      end
  end.

(** [_to_series], format.py lines 55-58. *)
Definition to_series {V C} (ref_coords : list (coord C)) (a : ndarray V) (dims : dims_leaf)
  : option (pandas V C) :=
  match to_dataarray ref_coords a dims with
  | None => None
  | Some da => match da_dims da with [] => None | l => Some (Series da l) end
  end.

(** Sequencing of the generator expressions inside [tuple(...)]: the first exception is raised. *)
Fixpoint map_opt {A B} (f : A -> option B) (l : list A) : option (list B) :=
  match l with
  | [] => Some []
  | a :: r => match f a with
              | None => None
              | Some b => match map_opt f r with None => None | Some bs => Some (b :: bs) end
              end
  end.

(** Equality of treedefs, [str(treedef) == str(treedef_format)]. *)
Fixpoint treedef_eqb (a b : tree unit) {struct a} : bool :=
  match a, b with
  | Leaf _, Leaf _ => true
  | Node x, Node y =>
      (fix go (x y : list (tree unit)) : bool :=
         match x, y with
         | [], [] => true
         | a :: x', b :: y' => treedef_eqb a b && go x' y'
         | _, _ => false
         end) x y
  | _, _ => false
  end.

(** [format_dims] used as a whole as [dims=]: a tuple of names or an array of names, other structures
    make xarray raise. *)
Fixpoint names_of (c : list (tree dims_leaf)) : option (list string) :=
  match c with
  | [] => Some []
  | Leaf (DName s) :: r => match names_of r with Some l => Some (s :: l) | None => None end
  | _ => None
  end.
Definition whole_dims (fd : tree dims_leaf) : option dims_leaf :=
  match fd with
  | Leaf d => Some d
  | Node c => match names_of c with Some l => Some (DArray l) | None => None end
  end.

(** The common body of [format_dataarray] (format.py lines 67-90), [format_dataframe] (lines 112-147) and
    [format_series] (lines 150-170): the leaves of [data] get the leaves of [format_dims] when the two have the
    same structure ... *)
Definition format_zip {V R} (one : ndarray V -> dims_leaf -> option R) (data : tree (ndarray V))
  (format_dims : tree dims_leaf) : option (tree R) :=
  match map_opt (fun '(a, d) => one a d) (combine (tree_leaves data) (tree_leaves format_dims)) with
  | None => None
  | Some l => tree_unflatten (tree_def data) l
  end.
(** ... and the whole [format_dims] otherwise. *)
Definition format_whole {V R} (one : ndarray V -> dims_leaf -> option R) (data : tree (ndarray V))
  (format_dims : tree dims_leaf) : option (tree R) :=
  match map_opt (fun a => match whole_dims format_dims with Some d => one a d | None => None end)
                (tree_leaves data) with
  | None => None
  | Some l => tree_unflatten (tree_def data) l
  end.
Definition format_tree {V R} (one : ndarray V -> dims_leaf -> option R) (data : tree (ndarray V))
  (format_dims : tree dims_leaf) : option (tree R) :=
  if treedef_eqb (tree_def data) (tree_def format_dims)
  then format_zip one data format_dims else format_whole one data format_dims.

(** [format_dataarray], lines 67-90. *)
Definition format_dataarray {V C} (ref_coords : list (coord C)) (data : tree (ndarray V))
  (format_dims : tree dims_leaf) : option (tree (dataarray V C)) :=
  format_tree (to_dataarray ref_coords) data format_dims.

(** [_get_dims_from_data], lines 61-64: "dim_0", "dim_1", ... ([dim_name] renders the number; [dim_names n i] are the
    names from [i] on). *)
Fixpoint dim_names (dim_name : nat -> string) (n i : nat) : list string :=
  match n with 0 => [] | S n' => dim_name i :: dim_names dim_name n' (S i) end.

(** [format_dataframe], lines 112-147.  [format_dims] falsy ([None] or the empty tuple, both [Node []]) is replaced
    by the generated names of the first leaf. *)
Definition format_dataframe {V C} (dim_name : nat -> string) (ref_coords : list (coord C))
  (data : tree (ndarray V)) (format_dims : tree dims_leaf) (index_nlevels : nat) : option (tree (pandas V C)) :=
  let one a d := to_dataframe ref_coords a d index_nlevels in
  if treedef_eqb (tree_def data) (tree_def format_dims)
  then format_zip one data format_dims
  else format_whole one data
         match format_dims, tree_leaves data with
         | Node [], a :: _ =>
             Node (map (fun s => Leaf (DName s)) (dim_names dim_name (length (nd_shape a)) 0))
         | _, _ => format_dims
         end.

(** [format_series], lines 150-170. *)
Definition format_series {V C} (ref_coords : list (coord C)) (data : tree (ndarray V))
  (format_dims : tree dims_leaf) : option (tree (pandas V C)) :=
  format_tree (to_series ref_coords) data format_dims.

(** [get_dims], lines 185-191.  The inner loop tries v.shape[:0], v.shape[:1], ..., v.shape. *)
Fixpoint get_dims_var (shape : list nat) (v : variable) (i fuel : nat) : option (list string) :=
  match fuel with
  | 0 => None
  | S fuel' =>
      if nat_list_eqb shape (firstn i (v_shape v)) then Some (firstn i (v_dims v))
      else get_dims_var shape v (S i) fuel'
  end.
Fixpoint get_dims (vars : list variable) (shape : list nat) : option (list string) :=
  match vars with
  | [] => None
  | v :: r =>
      match get_dims_var shape v 0 (length (v_shape v) + 1) with
      | Some d => Some d
      | None => get_dims r shape
      end
  end.

Inductive output_format := FDataArray | FDataFrame | FOther.
Inductive formatted (V C : Type) :=
| Plain (a : ndarray V)
| Labelled (da : dataarray V C)
| Tabular (p : pandas V C).
Arguments Plain {V C} a.
Arguments Labelled {V C} da.
Arguments Tabular {V C} p.

(** The single leaf of a tree which is a leaf. *)
Definition the_leaf {L} (t : option (tree L)) : option L :=
  match t with Some (Leaf l) => Some l | _ => None end.

(** [auto_format_with_shape], lines 173-201; [None]: an exception. *)
Definition auto_format_with_shape {V C} (dim_name : nat -> string) (ds : dataset C) (a : ndarray V)
  (fmt : output_format) : option (formatted V C) :=
  match get_dims (ds_vars ds) (nd_shape a) with
  | None | Some [] => Some (Plain a)
  | Some dims =>
      let fd := Node (map (fun s => Leaf (DName s)) dims) in
      match fmt with
      | FDataArray => option_map Labelled (the_leaf (format_dataarray (ds_coords ds) (Leaf a) fd))
      | FDataFrame => option_map Tabular (the_leaf (format_dataframe dim_name (ds_coords ds) (Leaf a) fd 1))
      | FOther => None
      end
  end.

(** [tree_auto_format_with_shape], lines 204-217. *)
Definition tree_auto_format_with_shape {V C} (dim_name : nat -> string) (ds : dataset C)
  (t : tree (ndarray V)) (fmt : output_format) : option (tree (formatted V C)) :=
  match map_opt (fun a => auto_format_with_shape dim_name ds a fmt) (tree_leaves t) with
  | None => None
  | Some l => tree_unflatten (tree_def t) l
  end.

(** The formatting of [StreamDataArray.apply], accessors.py lines 138-148: ValueError falls back on the first dim.
    Here [format_dims] is a tuple of names ([dataarray.dims] by default). *)
Definition names_tree (l : list string) : tree dims_leaf := Node (map (fun s => Leaf (DName s)) l).
Definition stream_dataarray_format {V C} (coords : list (coord C)) (outputs : tree (ndarray V))
  (dims : list string) : option (tree (dataarray V C)) :=
  match format_dataarray coords outputs (names_tree dims) with
  | Some r => Some r
  | None => match dims with
            | [] => None
            | d :: _ => format_dataarray coords outputs (names_tree [d])
            end
  end.
