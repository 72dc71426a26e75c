(** Specification vocabulary for covariances. *)
From Coq Require Import List Reals.
From Verif Require Import Model.Float Spec.EwmSpec.
Import ListNotations.
Local Open Scope R_scope.

(** entry (i,j) of a matrix *)
Definition nth2 {A} (m : list (list A)) (i j : nat) : option A :=
  match nth_error m i with Some r => nth_error r j | None => None end.

(** inputs are pairs of vectors (x, y): the series x_i, y_j and x_i * y_j *)
Definition comp_x (i : nat) (xy : list fl * list fl) : fl := nth i (fst xy) NaN.
Definition comp_y (j : nat) (xy : list fl * list fl) : fl := nth j (snd xy) NaN.
Definition comp_xy (i j : nat) (xy : list fl * list fl) : fl := fmul (comp_x i xy) (comp_y j xy).
Definition shaped (p q : nat) (xy : list fl * list fl) : Prop :=
  length (fst xy) = p /\ length (snd xy) = q.

(** the quadratic form sum_ij c_i c_j C_ij *)
Definition quad (p : nat) (c : nat -> R) (C : nat -> nat -> R) : R :=
  sum_n p (fun i => sum_n p (fun j => c i * c j * C i j)).

(** a vector observation of dimension p, entirely observed or entirely missing *)
Definition row_of (p : nat) (o : option (nat -> R)) : list fl :=
  match o with Some v => map (fun i => Fin (v i)) (seq 0 p) | None => repeat NaN p end.
