(** Model of /repo/src/wax/optim/newton.py.  A vector of dimension n is a function of which only the
    indices below n matter, a matrix a function of two indices; exact real arithmetic.  The code works
    leaf by leaf on a pytree of arrays, each flattened (lines 97-103): one leaf is modelled by its
    flattened vector, the tree by the list of its leaves. *)
From Coq Require Import List Reals Arith.
From Verif Require Import Model.Ewm.
Import ListNotations.
Local Open Scope R_scope.

Definition vec := nat -> R.
Definition mat := nat -> nat -> R.

(** Sum over the indices below n, in order *)
Fixpoint vsum (n : nat) (f : nat -> R) : R := match n with O => 0 | S k => vsum k f + f k end.
(** the products [@] of numpy on vectors and matrices *)
Definition vdot (n : nat) (u v : vec) : R := vsum n (fun i => u i * v i).
Definition vecmat (n : nat) (u : vec) (A : mat) : vec := fun j => vsum n (fun i => u i * A i j).
Definition matvec (n : nat) (A : mat) (v : vec) : vec := fun i => vsum n (fun j => A i j * v j).
Definition matmul (n : nat) (A B : mat) : mat := fun i j => vsum n (fun k => A i k * B k j).
(** jnp.outer, jnp.eye *)
Definition outer (u v : vec) : mat := fun i j => u i * v j.
Definition eye : mat := fun i j => if Nat.eqb i j then 1 else 0.

(** newton.py lines 55-58 *)
Definition sherman_morrison (n : nat) (A_inv : mat) (u v : vec) : mat :=
  let den := 1 + vdot n (vecmat n u A_inv) v in
  fun i j => A_inv i j - matmul n (matmul n A_inv (outer u v)) A_inv i j / den.

(** newton.py lines 74-78, one leaf of n entries *)
Definition newton_init (eps : R) (n : nat) : mat := fun i j => eye i j / eps.

(** newton.py lines 80-103, one leaf: the rescaled update and the new state *)
Definition newton_update (n : nat) (g : vec) (hinv : mat) : vec * mat :=
  let hinv := sherman_morrison n hinv g g in
  (matvec n hinv g, hinv).

(** newton.py lines 44-47: chain(scale_by_newton, scale_by_learning_rate): updates times -lr *)
Definition newton_chain (lr : R) (n : nat) (g : vec) (hinv : mat) : vec * mat :=
  let '(u, hinv) := newton_update n g hinv in (fun i => - lr * u i, hinv).

(** Successive updates; the list of the updates and the final state. *)
Fixpoint newton_run (n : nat) (hinv : mat) (gs : list vec) : list vec * mat :=
  match gs with
  | [] => ([], hinv)
  | g :: r => let '(u, h) := newton_update n g hinv in
              let '(us, hF) := newton_run n h r in (u :: us, hF)
  end.

(** The tree_maps of init_fn and update_fn, on the list of the leaves (dimension, gradient) *)
Definition newton_init_tree (eps : R) (dims : list nat) : list mat := map (newton_init eps) dims.
Definition newton_update_tree (gs : list (nat * vec)) (hs : list mat) : list (vec * mat) :=
  map2 (fun g h => newton_update (fst g) (snd g) h) gs hs.
(** Successive updates of the tree: the updates of each step and the final state *)
Fixpoint newton_run_tree (hs : list mat) (gss : list (list (nat * vec))) : list (list vec) * list mat :=
  match gss with
  | [] => ([], hs)
  | gs :: r => let uh := newton_update_tree gs hs in
               let '(us, hF) := newton_run_tree (map snd uh) r in (map fst uh :: us, hF)
  end.
