(** Pytrees (jax.tree_util), as used by /repo/src/wax/unroll.py lines 28, 236-244, 267-274.
    Simplification: node metadata (dict keys, namedtuple classes) is dropped; a treedef is a
    tree with [unit] leaves. *)
From Coq Require Import List.
Import ListNotations.

Inductive tree (L : Type) : Type :=
| Leaf (l : L)
| Node (children : list (tree L)).
Arguments Leaf {L} l.
Arguments Node {L} children.

(** jax.tree_util.tree_map on one tree. *)
Fixpoint tree_map {L M : Type} (f : L -> M) (t : tree L) : tree M :=
  match t with
  | Leaf l => Leaf (f l)
  | Node c => Node (map (tree_map f) c)
  end.

(** Leaves component of jax.tree_util.tree_flatten (left to right). *)
Fixpoint tree_leaves {L : Type} (t : tree L) : list L :=
  match t with
  | Leaf l => [l]
  | Node c => flat_map tree_leaves c
  end.

(** Treedef component of jax.tree_util.tree_flatten. *)
Definition tree_def {L : Type} (t : tree L) : tree unit := tree_map (fun _ => tt) t.

(** jax.tree_util.tree_unflatten: consumes leaves from the left.  Returns the remaining leaves;
    [None] when there are too few leaves (jax raises). *)
Fixpoint unflatten_aux {L : Type} (td : tree unit) (ls : list L) : option (tree L * list L) :=
  match td with
  | Leaf _ => match ls with [] => None | l :: r => Some (Leaf l, r) end
  | Node c =>
      let fix go (cs : list (tree unit)) (ls : list L) : option (list (tree L) * list L) :=
        match cs with
        | [] => Some ([], ls)
        | c0 :: cs' =>
            match unflatten_aux c0 ls with
            | None => None
            | Some (t0, r) =>
                match go cs' r with
                | None => None
                | Some (ts, r') => Some (t0 :: ts, r')
                end
            end
        end in
      match go c ls with
      | None => None
      | Some (ts, r) => Some (Node ts, r)
      end
  end.

(** tree_unflatten: too many leaves is also an error in jax. *)
Definition tree_unflatten {L : Type} (td : tree unit) (ls : list L) : option (tree L) :=
  match unflatten_aux td ls with
  | Some (t, []) => Some t
  | _ => None
  end.
