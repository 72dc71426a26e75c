(** Specification vocabulary for the online Newton optimiser. *)
From Coq Require Import List Reals.
From Verif Require Import Model.Newton.
Import ListNotations.
Local Open Scope R_scope.

(** Equality of matrices / vectors of dimension n. *)
Definition mat_eq (n : nat) (A B : mat) : Prop :=
  forall i j, (i < n)%nat -> (j < n)%nat -> A i j = B i j.
Definition vec_eq (n : nat) (u v : vec) : Prop := forall i, (i < n)%nat -> u i = v i.
Definition inverse_of (n : nat) (A B : mat) : Prop :=
  mat_eq n (matmul n A B) eye /\ mat_eq n (matmul n B A) eye.
Definition mat_plus (A B : mat) : mat := fun i j => A i j + B i j.
(** The regularised sum of outer products: eps I + sum of g g^T. *)
Fixpoint hessian (eps : R) (gs : list vec) : mat :=
  match gs with
  | [] => fun i j => eps * eye i j
  | g :: r => mat_plus (hessian eps r) (outer g g)
  end.
Definition symmetric (n : nat) (H : mat) : Prop := mat_eq n H (fun i j => H j i).
