(** Vocabulary for the labelling of arrays. *)
From Coq Require Import String List Compare_dec.
From Verif Require Import Model.Tree Model.Format.
Import ListNotations.
Local Open Scope list_scope.

Definition is_prefix {A : Type} (p l : list A) : Prop := exists rest, l = p ++ rest.

(** An xarray Dataset: every dimension has one size, and a coordinate named as a dimension is along it. *)
Definition well_formed {C : Type} (size : string -> nat) (ds : dataset C) : Prop :=
  (forall v, In v (ds_vars ds) -> v_shape v = map size (v_dims v)) /\
  (forall c, In c (ds_coords ds) -> c_shape c = map size (c_dims c)) /\
  (forall c v, In c (ds_coords ds) -> In v (ds_vars ds) -> In (c_name c) (v_dims v) ->
     c_dims c = [c_name c]).

(** The first variable of the dataset whose shape starts with [shape]. *)
Definition reference {C : Type} (ds : dataset C) (shape : list nat) (v : variable) : Prop :=
  exists before after, ds_vars ds = before ++ v :: after /\ is_prefix shape (v_shape v) /\
    forall u, In u before -> ~ is_prefix shape (v_shape u).

(** The coordinates named in [dims]. *)
Definition coords_named {C : Type} (dims : list string) (cs : list (coord C)) : list (coord C) :=
  filter (fun c => if in_dec string_dec (c_name c) dims then true else false) cs.

(** [a] labelled by [dims]. *)
Definition labelled_by {V C : Type} (cs : list (coord C)) (dims : list string) (a : ndarray V) : dataarray V C :=
  DataArray a dims (coords_named dims cs).

(** The axis [d] of an array with dims [dims] and shape [shape] has size [n]. *)
Definition axis_size (d : string) (n : nat) (dims : list string) (shape : list nat) : Prop :=
  exists i, nth_error dims i = Some d /\ nth_error shape i = Some n /\
    forall j, j < i -> nth_error dims j <> Some d.

(** [a] can be labelled by [dims]: as many names as axes, and the coordinates of these names have the
    sizes of the array. *)
Definition fits {V C : Type} (cs : list (coord C)) (dims : list string) (a : ndarray V) : Prop :=
  length dims = length (nd_shape a) /\
  forall c, In c cs -> In (c_name c) dims ->
    length (c_dims c) = length (c_shape c) /\
    forall d n, In (d, n) (combine (c_dims c) (c_shape c)) -> axis_size d n dims (nd_shape a).

(** The same nesting of two trees. *)
Definition same_structure {A B : Type} (t : tree A) (u : tree B) : Prop := tree_def t = tree_def u.

(** Three lists of the same length whose elements are related one by one. *)
Inductive zipped {A B R : Type} (Q : A -> B -> R -> Prop) : list A -> list B -> list R -> Prop :=
| zip_nil : zipped Q [] [] []
| zip_cons a b r la lb lr : Q a b r -> zipped Q la lb lr -> zipped Q (a :: la) (b :: lb) (r :: lr).

(** The table of a labelled array: one name is the index of a Series, two are index and columns, and of more the
    [levels] first are in the index, the others in the columns (all in the index of a Series when there is no other). *)
Definition table {V C : Type} (levels : nat) (da : dataarray V C) : option (pandas V C) :=
  match da_dims da with
  | [] => None
  | [d] => Some (Series da [d])
  | [d; e] => Some (Frame da [d] [e])
  | dims => if le_lt_dec (length dims) levels then Some (Series da dims)
            else Some (Frame da (firstn levels dims) (skipn levels dims))
  end.
