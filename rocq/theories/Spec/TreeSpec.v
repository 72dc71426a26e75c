(** Specification vocabulary: a pytree of arrays seen as the sequence of its slices along the
    first axis. *)
From Coq Require Import List.
From Verif Require Import Model.Tree.

(** [slices xs sl]: every array in [xs] has length [length sl], and slice number t has the same
    structure as [xs], each leaf being the t-th row of the corresponding array. *)
Definition slices {A : Type} (xs : tree (list A)) (sl : list (tree A)) : Prop :=
  (forall l, In l (tree_leaves xs) -> length l = length sl) /\
  forall t s, nth_error sl t = Some s -> tree_map Some s = tree_map (fun l => nth_error l t) xs.
