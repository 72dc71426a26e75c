(** C156: the flax ApplyMask on arrays of any rank. *)
From Coq Require Import List Bool Arith ZArith Reals.
From Verif Require Import Model.Tree Model.Float Model.Masks Model.FlaxMore Model.FlaxApplyMask Spec.MaskSpec Spec.FlaxApplyMaskSpec.
From Verif Require Import Proofs.FlaxApplyMaskProofs Proofs.FlaxApplyMaskProofs2.
Import ListNotations.

(** ** C156 *)
(** axis=0: the mask has the first dimensions of the array, and selects the blocks under them. *)
Theorem C156_axis0 {A : Type} (v : A) (m : arr bool) (x : arr A) (t : list nat) :
  well_shaped m -> well_shaped x -> shape x = shape m ++ t ->
  exists y, mask_leaf (Some 0%Z) v m x = Some y /\ shape y = shape x /\ well_shaped y /\
    forall i j, inside (shape m) i -> inside t j -> entry y (i ++ j) = kept (entry m i) (entry x (i ++ j)) v.
Proof. exact (@leaf_axis0 A v m x t). Qed.
(** axis=1: a mask of dimension 1 selects along the second dimension. *)
Theorem C156_axis1 {A : Type} (v : A) (l : list bool) (x : arr A) (r : nat) (t : list nat) :
  well_shaped x -> shape x = r :: length l :: t ->
  exists y, mask_leaf (Some 1%Z) v (Arr [length l] l) x = Some y /\ shape y = shape x /\ well_shaped y /\
    forall i j k, inside (shape x) (i :: j :: k) -> entry y (i :: j :: k) = kept (nth_error l j) (entry x (i :: j :: k)) v.
Proof. exact (@leaf_axis1 A v l x r t). Qed.
(** No axis, and also any negative one: the mask has the last dimensions of the array, all of them if the shapes are equal. *)
Theorem C156_no_axis {A : Type} (v : A) (axis : option Z) (m : arr bool) (x : arr A) (t : list nat) :
  axis <> Some 0%Z -> axis <> Some 1%Z -> well_shaped m -> well_shaped x -> shape x = t ++ shape m ->
  exists y, mask_leaf axis v m x = Some y /\ shape y = shape x /\ well_shaped y /\
    forall j i, inside t j -> inside (shape m) i -> entry y (j ++ i) = kept (entry m i) (entry x (j ++ i)) v.
Proof. exact (@leaf_no_axis A v axis m x t). Qed.
(** Whatever the axis, a mask of the shape of the array selects its entries. *)
Theorem C156_same_shape {A : Type} (v : A) (axis : option Z) (m : arr bool) (x : arr A) : well_shaped m -> well_shaped x -> shape m = shape x ->
  exists y, mask_leaf axis v m x = Some y /\ shape y = shape x /\
    forall i, inside (shape x) i -> entry y i = kept (entry m i) (entry x i) v.
Proof. exact (@leaf_same_entries A v axis m x). Qed.
(** The call raises on a leaf exactly when the shape of the mask, completed by the axis, and that of the array do not go together;
    else the result has their common shape. *)
Theorem C156_raises {A : Type} (v : A) (axis : option Z) (m : arr bool) (x : arr A) (o : list nat) :
  (exists y, mask_leaf axis v m x = Some y /\ shape y = o) <-> together (mask_shape axis (shape m) (shape x)) (shape x) o.
Proof. exact (@leaf_shape A v axis m x o). Qed.
(** A nested structure is masked leaf by leaf; an axis greater than 1 raises. *)
Theorem C156_tree {A : Type} (v : A) (axis : option Z) (m : arr bool) (t t' : tree (arr A)) : flax_apply_mask axis v m t = Some t' <->
  (forall z, axis = Some z -> (z <= 1)%Z) /\ tree_def t' = tree_def t /\
  Forall2 (fun a b => mask_leaf axis v m a = Some b) (tree_leaves t) (tree_leaves t').
Proof. exact (@flax_tree A axis v m t t'). Qed.
(** What the haiku module gives, with a mask of dimension 1 when there is an axis, the flax module gives. *)
Theorem C156_haiku (axis : option nat) (v : fl) (m : arr bool) (x y : arr fl) : well_shaped m -> well_shaped x ->
  (axis = None \/ exists n, shape m = [n]) -> apply_mask axis v m x = Some y -> mask_leaf (option_map Z.of_nat axis) v m x = Some y.
Proof. exact (@haiku_mask axis v m x y). Qed.
(** The masks of the flax statistics (C74) are those of this module. *)
Theorem C156_statistics (axis : option nat) (v : fl) (m : arr bool) (x y : arr fl) : well_shaped m -> well_shaped x ->
  fapply_mask axis v m x = Some y -> mask_leaf (option_map Z.of_nat axis) v m x = Some y.
Proof. exact (@statistics_mask axis v m x y). Qed.
(** Refuted: "the result has the shape of the input" and "the flax module raises when the haiku one does": on a scalar, a mask with n
    entries gives n values, where the haiku module raises. *)
Theorem C156_shape_refuted (axis : option nat) (v w : fl) (l : list bool) : axis = None \/ axis = Some 0 \/ axis = Some 1 ->
  apply_mask axis v (Arr [length l] l) (Arr [] [w]) = None /\
  exists y, mask_leaf (option_map Z.of_nat axis) v (Arr [length l] l) (Arr [] [w]) = Some y /\ shape y = [length l].
Proof. exact (@scalar_mask axis v w l). Qed.

Module DemoFlaxApplyMask.
  Definition x : arr nat := Arr [2; 2; 3] [1; 2; 3; 4; 5; 6; 7; 8; 9; 10; 11; 12].
  Example C156_example : well_shaped x /\
    mask_leaf (Some 0%Z) 0 (Arr [2] [true; false]) x = Some (Arr [2; 2; 3] [1; 2; 3; 4; 5; 6; 0; 0; 0; 0; 0; 0]) /\
    mask_leaf (Some 1%Z) 0 (Arr [2] [true; false]) x = Some (Arr [2; 2; 3] [1; 2; 3; 0; 0; 0; 7; 8; 9; 0; 0; 0]) /\
    mask_leaf None 0 (Arr [3] [true; false; true]) x = Some (Arr [2; 2; 3] [1; 0; 3; 4; 0; 6; 7; 0; 9; 10; 0; 12]) /\
    mask_leaf None 0 (Arr [2] [true; false]) x = None /\ entry x [1; 0; 2] = Some 9 /\
    flax_apply_mask (Some 2%Z) 0 (Arr [2] [true; false]) (Leaf x) = None /\
    mask_leaf (Some 0%Z) 0 (Arr [4] [true; false; true; true]) (Arr [1; 2] [7; 8]) = Some (Arr [4; 2] [7; 8; 0; 0; 7; 8; 7; 8]).
  Proof. repeat split; reflexivity. Qed.
  Example C156_together : together [2; 1; 1] [4; 3] [2; 4; 3] /\ apply_mask (Some 0) (Fin 0%R) (Arr [2] [true; false]) (Arr [2; 1] [NaN; NaN]) = Some (Arr [2; 1] [NaN; Fin 0%R]).
  Proof.
    split; [|reflexivity]. split; [reflexivity|]. intros [|[|[|k]]] H; cbn; [tauto|tauto|tauto|].
    exfalso. cbn in H. do 3 apply Nat.succ_lt_mono in H. inversion H.
  Qed.
End DemoFlaxApplyMask.
Print Assumptions C156_axis0. Print Assumptions C156_axis1. Print Assumptions C156_no_axis. Print Assumptions C156_same_shape.
Print Assumptions C156_raises. Print Assumptions C156_tree. Print Assumptions C156_haiku. Print Assumptions C156_statistics.
Print Assumptions C156_shape_refuted. Print Assumptions DemoFlaxApplyMask.C156_example. Print Assumptions DemoFlaxApplyMask.C156_together.
