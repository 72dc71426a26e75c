(** Model of tree_lag, /repo/src/wax/modules/lag.py lines 39-46.
    tree_map creates one Lag module per leaf, in the order of the leaves; haiku numbers them (lag, lag_1, ...) from
    scratch at each application, so that the i-th leaf finds the state of the i-th module again: the state is the list
    of their states.  [None] arguments are no leaves (nodes without children). *)
From Coq Require Import List.
From Verif Require Import Model.Tree Model.Unroll Model.Modules.
Import ListNotations.

Section Mapped.
  Context {S A B : Type}.
  Variables (init : A -> S) (step : S -> A -> B * S).
  Definition mapped_init (t : tree A) : list S := map init (tree_leaves t).
  (** line 44: the function on each leaf, in order *)
  Fixpoint map_steps (ss : list S) (ls : list A) : list B * list S :=
    match ss, ls with
    | s :: ss, l :: ls => let '(b, s') := step s l in
                          let '(bs, ss') := map_steps ss ls in (b :: bs, s' :: ss')
    | _, _ => ([], [])
    end.
  (** jax.tree_util.tree_map: flatten, apply, unflatten *)
  Definition mapped_step (ss : list S) (t : tree A) : option (tree B) * list S :=
    let '(bs, ss') := map_steps ss (tree_leaves t) in (tree_unflatten (tree_def t) bs, ss').
  Definition TreeMapped := hk_module mapped_init mapped_step.
End Mapped.

(** lines 43-46: the arguments are mapped as a tuple, so that the result is a tuple even for one argument *)
Definition tree_lag {A : Type} (shift : nat) (full_like : A -> A) :=
  hk_module (fun args : list (tree A) => mapped_init (fun x0 => buffer_init (shift + 1) (full_like x0)) (Node args))
    (fun ss args => mapped_step (lag_step shift) ss (Node args)).
