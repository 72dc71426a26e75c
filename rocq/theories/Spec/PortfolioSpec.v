(** Vocabulary of C128: affine images of vector observations. *)
From Coq Require Import List Reals.
From Verif Require Import Model.Float Spec.EwmSpec Spec.CovSpec.
Import ListNotations.
Local Open Scope R_scope.

(** a pair of vectors of dimensions p and q, both observed or both missing *)
Definition pair_row (p q : nat) (o : option ((nat -> R) * (nat -> R))) : list fl * list fl :=
  (row_of p (option_map fst o), row_of q (option_map snd o)).
(** the vector A v + a, from dimension p *)
Definition affine (p : nat) (A : nat -> nat -> R) (a : nat -> R) (v : nat -> R) : nat -> R :=
  fun k => sum_n p (fun i => A k i * v i) + a k.
(** the value of the portfolio c *)
Definition portfolio (p : nat) (c : nat -> R) (v : nat -> R) : R := sum_n p (fun i => c i * v i).
(** all the entries of a p x q matrix *)
Definition entries (p q : nat) (M : list (list fl)) (C : nat -> nat -> fl) : Prop :=
  forall i j, (i < p)%nat -> (j < q)%nat -> nth2 M i j = Some (C i j).
