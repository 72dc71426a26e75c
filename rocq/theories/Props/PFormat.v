(** Property theorems C48, C64: labelling of arrays (format.py, accessors.py).  [None] is an exception. *)
From Coq Require Import String List Lia.
From Verif Require Import Model.Tree Model.Format Spec.FormatSpec Proofs.FormatProofs.
Import ListNotations.
Local Open Scope list_scope.
Local Open Scope string_scope.

(** C48: an array of shape s, not (), is labelled exactly when the shape of some variable starts with s: the first such variable gives its first dims and the coordinates of these names, the contents being the array itself; nothing else is labelled. *)
Theorem C48_labelled_exactly :
  forall (V C : Type) size dim_name (ds : dataset C) (a : ndarray V) r,
  well_formed size ds ->
  auto_format_with_shape dim_name ds a FDataArray = Some r <->
  (exists v, nd_shape a <> [] /\ reference ds (nd_shape a) v /\
     r = Labelled (labelled_by (ds_coords ds) (firstn (length (nd_shape a)) (v_dims v)) a)) \/
  ((nd_shape a = [] \/ (forall u, In u (ds_vars ds) -> ~ is_prefix (nd_shape a) (v_shape u))) /\ r = Plain a).
Proof. exact @auto_format_iff. Qed.
Print Assumptions C48_labelled_exactly.

(** C48: the three output formats, when some variable applies ... *)
Theorem C48_formats :
  forall (V C : Type) size dim_name (ds : dataset C) (a : ndarray V) v,
  well_formed size ds -> reference ds (nd_shape a) v -> nd_shape a <> [] ->
  let dims := firstn (length (nd_shape a)) (v_dims v) in
  let da := labelled_by (ds_coords ds) dims a in
  auto_format_with_shape dim_name ds a FDataArray = Some (Labelled da) /\
  (forall d, dims = [d] -> auto_format_with_shape dim_name ds a FDataFrame = Some (Tabular (Series da [d]))) /\
  (forall d e r, dims = d :: e :: r ->
     auto_format_with_shape dim_name ds a FDataFrame = Some (Tabular (Frame da [d] (e :: r)))) /\
  auto_format_with_shape dim_name ds a FOther = None.
Proof. exact @auto_format_dims. Qed.
Print Assumptions C48_formats.

(** ... and when none applies: the array is returned as it is, even for an unknown format. *)
Theorem C48_plain :
  forall (V C : Type) size dim_name (ds : dataset C) (a : ndarray V) fmt,
  well_formed size ds ->
  nd_shape a = [] \/ (forall u, In u (ds_vars ds) -> ~ is_prefix (nd_shape a) (v_shape u)) ->
  auto_format_with_shape dim_name ds a fmt = Some (Plain a).
Proof. exact @auto_format_plain. Qed.
Print Assumptions C48_plain.

(** C48: tree_auto_format_with_shape does this leaf by leaf and keeps the structure; it raises iff some leaf does. *)
Theorem C48_leaf_by_leaf :
  forall (V C : Type) dim_name (ds : dataset C) (t : tree (ndarray V)) fmt r,
  tree_auto_format_with_shape dim_name ds t fmt = Some r <->
  same_structure t r /\
  Forall2 (fun a b => auto_format_with_shape dim_name ds a fmt = Some b) (tree_leaves t) (tree_leaves r).
Proof. exact @tree_auto_format_iff. Qed.
Print Assumptions C48_leaf_by_leaf.

Definition ex_ds : dataset unit :=
  Dataset [Var "x" ["a"; "b"] [3; 4]; Var "y" ["c"; "d"] [3; 5]]
          [Coord "a" ["a"] [3] tt; Coord "d" ["d"] [5] tt; Coord "z" ["b"] [4] tt].
Definition ex_size (s : string) : nat := match s with "a" => 3 | "b" => 4 | "c" => 3 | _ => 5 end.
Example C48_example :
  well_formed ex_size ex_ds /\
  reference ex_ds [3] (Var "x" ["a"; "b"] [3; 4]) /\ reference ex_ds [3; 5] (Var "y" ["c"; "d"] [3; 5]) /\
  auto_format_with_shape (fun _ => "") ex_ds (NdArray [3; 5] tt) FDataArray =
    Some (Labelled (DataArray (NdArray [3; 5] tt) ["c"; "d"] [Coord "d" ["d"] [5] tt])) /\
  auto_format_with_shape (fun _ => "") ex_ds (NdArray [5] tt) FDataArray = Some (Plain (NdArray [5] tt)).
Proof.
  split; [|split; [|split; [|split; reflexivity]]].
  - split; [|split].
    + intros v [<-|[<-|[]]]; reflexivity.
    + intros c [<-|[<-|[<-|[]]]]; reflexivity.
    + intros c v [<-|[<-|[<-|[]]]] [<-|[<-|[]]] H; cbn in H; try reflexivity; intuition discriminate.
  - exists [], [Var "y" ["c"; "d"] [3; 5]]. split; [reflexivity|]. split; [exists [4]; reflexivity|intros u []].
  - exists [Var "x" ["a"; "b"] [3; 4]], []. split; [reflexivity|]. split; [exists []; reflexivity|].
    intros u [<-|[]] [r H]. discriminate.
Qed.

(** C64: a tuple of names which has not the structure of the data labels every array with all these names. *)
Theorem C64_common_dims :
  forall (V C : Type) (cs : list (coord C)) (data : tree (ndarray V)) (dims : list string) r,
  ~ same_structure data (names_tree dims) ->
  format_dataarray cs data (names_tree dims) = Some r <->
  (forall a, In a (tree_leaves data) -> fits cs dims a) /\ r = tree_map (labelled_by cs dims) data.
Proof. exact @format_dataarray_common. Qed.
Print Assumptions C64_common_dims.

(** C64: one array of names labels every array, whatever the structure of the data. *)
Theorem C64_array_dims :
  forall (V C : Type) (cs : list (coord C)) (data : tree (ndarray V)) (dims : list string) r,
  format_dataarray cs data (Leaf (DArray dims)) = Some r <->
  (forall a, In a (tree_leaves data) -> fits cs dims a) /\ r = tree_map (labelled_by cs dims) data.
Proof. exact @format_dataarray_one_array. Qed.
Print Assumptions C64_array_dims.

(** C64: a format_dims of the structure of the data, with arrays of names as leaves, labels each array with its own names. *)
Theorem C64_each_dims :
  forall (V C : Type) (cs : list (coord C)) (data : tree (ndarray V)) (fd : tree (list string)) r,
  same_structure data fd ->
  format_dataarray cs data (tree_map DArray fd) = Some r <->
  same_structure data r /\
  zipped (fun a dims b => fits cs dims a /\ b = labelled_by cs dims a)
         (tree_leaves data) (tree_leaves fd) (tree_leaves r).
Proof. exact @format_dataarray_each. Qed.
Print Assumptions C64_each_dims.

(** C64 fails for a tuple of as many arrays as there are names: the names are not common to the arrays but distributed over them, array i gets the name i alone (and must be one-dimensional). *)
Theorem C64_tuple_refuted :
  forall (V C : Type) (cs : list (coord C)) (arrays : list (ndarray V)) (dims : list string) r,
  length arrays = length dims ->
  format_dataarray cs (Node (map Leaf arrays)) (names_tree dims) = Some r ->
  exists l, r = Node (map Leaf l) /\
    zipped (fun a d b => da_data b = a /\ da_dims b = [d] /\ exists n, nd_shape a = [n]) arrays dims l.
Proof. exact @format_dataarray_tuple. Qed.
Print Assumptions C64_tuple_refuted.

(** C64: the DataArray accessor labels all the outputs with all the dims of the input if this fits all of them, otherwise all of them with the first dim if this fits all; otherwise it raises. *)
Theorem C64_stream_accessor :
  forall (V C : Type) (cs : list (coord C)) (outputs : tree (ndarray V)) (dims : list string) r,
  ~ same_structure outputs (names_tree dims) ->
  ~ same_structure outputs (names_tree (firstn 1 dims)) ->
  stream_dataarray_format cs outputs dims = Some r <->
  ((forall a, In a (tree_leaves outputs) -> fits cs dims a) /\ r = tree_map (labelled_by cs dims) outputs) \/
  (~ (forall a, In a (tree_leaves outputs) -> fits cs dims a) /\ exists time rest, dims = time :: rest /\
   (forall a, In a (tree_leaves outputs) -> fits cs [time] a) /\ r = tree_map (labelled_by cs [time]) outputs).
Proof. exact @stream_dataarray_format_all. Qed.
Print Assumptions C64_stream_accessor.

Example C64_example :
  let cs := [Coord "time" ["time"] [3] tt; Coord "x" ["x"] [2] tt] in
  let a := NdArray [3; 2] 0 in let b := NdArray [3] 1 in
  ~ same_structure (Node [Leaf a]) (names_tree ["time"; "x"]) /\
  fits cs ["time"; "x"] a /\
  (* one output does not have all the dims: the fallback does not fit the other, an exception *)
  stream_dataarray_format cs (Node [Node [Leaf a]; Leaf b]) ["time"; "x"] = None /\
  (* two one-dimensional outputs and two dims: the second output is labelled by "x" if sizes allow *)
  (exists r, format_dataarray cs (Node [Leaf b; Leaf (NdArray [2] 7)]) (names_tree ["time"; "x"]) =
     Some (Node [Leaf r; Leaf (DataArray (NdArray [2] 7) ["x"] [Coord "x" ["x"] [2] tt])]) /\ da_dims r = ["time"]).
Proof.
  cbn zeta. split; [discriminate|]. split.
  { split; [reflexivity|]. intros c [<-|[<-|[]]] _; cbn; (split; [reflexivity|]); intros d n [[= <- <-]|[]].
    - exists 0. repeat split; auto. intros j Hj. lia.
    - exists 1. repeat split; auto. intros [|j] Hj; [discriminate|lia]. }
  split; [reflexivity|]. eexists. split; reflexivity.
Qed.

(** C64: format_dataframe labels every array with the names and makes a table of it: index and columns are exactly these names. *)
Theorem C64_dataframe :
  forall (V C : Type) dim_name (cs : list (coord C)) (data : tree (ndarray V)) (dims : list string) levels r,
  1 <= levels -> dims <> [] -> ~ same_structure data (names_tree dims) ->
  format_dataframe dim_name cs data (names_tree dims) levels = Some r <->
  same_structure data r /\
  Forall2 (fun a b => fits cs dims a /\ table levels (labelled_by cs dims a) = Some b) (tree_leaves data) (tree_leaves r).
Proof. exact @format_dataframe_common. Qed.
Print Assumptions C64_dataframe.

(** C64: without names the names are dim_0, dim_1, ... of the first array, for all the arrays. *)
Theorem C64_dataframe_generated :
  forall (V C : Type) dim_name (cs : list (coord C)) (data : tree (ndarray V)) a0 rest levels r,
  1 <= levels -> tree_leaves data = a0 :: rest ->
  format_dataframe dim_name cs data (Node []) levels = Some r <->
  same_structure data r /\
  let dims := map dim_name (seq 0 (length (nd_shape a0))) in
  Forall2 (fun a b => fits cs dims a /\ table levels (labelled_by cs dims a) = Some b) (tree_leaves data) (tree_leaves r).
Proof. exact @format_dataframe_generated. Qed.
Print Assumptions C64_dataframe_generated.

Theorem C64_dataframe_each :
  forall (V C : Type) dim_name (cs : list (coord C)) (data : tree (ndarray V)) (fd : tree (list string)) levels r,
  1 <= levels -> same_structure data fd ->
  format_dataframe dim_name cs data (tree_map DArray fd) levels = Some r <->
  same_structure data r /\
  zipped (fun a dims b => fits cs dims a /\ table levels (labelled_by cs dims a) = Some b)
         (tree_leaves data) (tree_leaves fd) (tree_leaves r).
Proof. exact @format_dataframe_each. Qed.
Print Assumptions C64_dataframe_each.

(** C64: format_series makes a Series of every array, all the names in its index; an array without axes raises. *)
Theorem C64_series :
  forall (V C : Type) (cs : list (coord C)) (data : tree (ndarray V)) (dims : list string) r,
  ~ same_structure data (names_tree dims) ->
  format_series cs data (names_tree dims) = Some r <->
  same_structure data r /\
  Forall2 (fun a b => fits cs dims a /\ dims <> [] /\ b = Series (labelled_by cs dims a) dims)
          (tree_leaves data) (tree_leaves r).
Proof. exact @format_series_common. Qed.
Print Assumptions C64_series.

Theorem C64_series_each :
  forall (V C : Type) (cs : list (coord C)) (data : tree (ndarray V)) (fd : tree (list string)) r,
  same_structure data fd ->
  format_series cs data (tree_map DArray fd) = Some r <->
  same_structure data r /\
  zipped (fun a dims b => fits cs dims a /\ dims <> [] /\ b = Series (labelled_by cs dims a) dims)
         (tree_leaves data) (tree_leaves fd) (tree_leaves r).
Proof. exact @format_series_each. Qed.
Print Assumptions C64_series_each.

Example C64_tables :
  let nm := fun i => match i with 0 => "dim_0" | 1 => "dim_1" | _ => "dim_2" end in
  let a := NdArray [3; 2; 4] 0 in let no : list (coord unit) := [] in
  format_dataframe nm no (Leaf a) (Node []) 1 =
    Some (Leaf (Frame (DataArray a ["dim_0"; "dim_1"; "dim_2"] []) ["dim_0"] ["dim_1"; "dim_2"])) /\
  format_dataframe nm no (Leaf a) (Node []) 3 =
    Some (Leaf (Series (DataArray a ["dim_0"; "dim_1"; "dim_2"] []) ["dim_0"; "dim_1"; "dim_2"])) /\
  format_series no (Leaf a) (names_tree ["x"; "y"; "z"]) =
    Some (Leaf (Series (DataArray a ["x"; "y"; "z"] []) ["x"; "y"; "z"])) /\
  format_series no (Leaf (NdArray [] 0)) (names_tree []) = None.
Proof. repeat split. Qed.
