(** Specification vocabulary for the long-run behaviour of the modules. *)
From Coq Require Import List ZArith Reals.
From Verif Require Import Model.Float Model.Newton Model.Optim Spec.EwmSpec.
Import ListNotations.
Local Open Scope R_scope.

(** the observations made at the steps s+1, ..., t *)
Definition between (fm : R) (s t : nat) (xs : list fl) : list (option R) :=
  map (observation fm) (firstn (t - s) (skipn (s + 1) xs)).

(** product of reals *)
Definition rprod (l : list R) : R := fold_right Rmult 1 l.
(** sum of absolute values *)
Definition abs_sum (l : list R) : R := fold_right (fun x s => Rabs x + s) 0 l.

(** the quadratic form x^T M x of a matrix of dimension n *)
Definition qform (n : nat) (M : Newton.mat) (x : Newton.vec) : R :=
  sum_n n (fun i => sum_n n (fun j => x i * M i j * x j)).
(** scalar product of two vectors of dimension n *)
Definition dotp (n : nat) (x y : Newton.vec) : R := sum_n n (fun i => x i * y i).

(** *** points of the parameter space *)
(** all the entries of a dictionary of arrays, in order *)
Definition entries (p : Optim.pmap Optim.array) : list fl := concat (map snd p).
(** same keys, arrays of the same lengths *)
Definition same_shape (p q : Optim.pmap Optim.array) : Prop :=
  map (fun kv : Optim.pkey * Optim.array => (fst kv, length (snd kv))) p =
  map (fun kv : Optim.pkey * Optim.array => (fst kv, length (snd kv))) q.
(** [p] has the shape of [sh] and its entries are the real numbers [v] *)
Definition at_point (sh p : Optim.pmap Optim.array) (v : list R) : Prop :=
  same_shape p sh /\ entries p = map Fin v.
(** |v - w|^2, <g, v - w> and |g|^2 *)
Definition sq_dist (v w : list R) : R := sum_n (length v) (fun i => (nth i v 0 - nth i w 0) ^ 2).
Definition inner_diff (g v w : list R) : R := sum_n (length v) (fun i => nth i g 0 * (nth i v 0 - nth i w 0)).
Definition sq_norm (g : list R) : R := sum_n (length g) (fun i => nth i g 0 ^ 2).
(** optax.sgd(lr): the update is -lr times the gradient *)
Definition is_sgd {OS : Type} (lr : R) (opt : Optim.gradient_transformation OS Optim.array) : Prop :=
  forall g os, fst (Optim.opt_update opt g os) =
    map (fun kv : Optim.pkey * Optim.array => (fst kv, map (fmul (Fin (- lr))) (snd kv))) g.
