(** Model of /repo/src/wax/flax/modules/apply_mask.py 23-77 on arrays of any rank: the flax ApplyMask, with the broadcasting
    of jnp.where. *)
From Coq Require Import List Bool Arith ZArith.
From Verif Require Import Model.Tree Model.Float Model.Ewm Model.Masks.
Import ListNotations.

(** Positions in an array in row-major order *)
Fixpoint ravel (s idx : list nat) : nat :=
  match s, idx with
  | d :: s', i :: r => i * size s' + ravel s' r
  | _, _ => 0
  end.
Fixpoint unravel (s : list nat) (k : nat) : list nat :=
  match s with
  | [] => []
  | d :: s' => (k / size s') :: unravel s' (k mod size s')
  end.
(** numpy's broadcasting of two shapes: aligned at the end, each pair of dimensions equal or one of them 1 *)
Definition bdim (a b : nat) : option nat := if a =? b then Some a else if a =? 1 then Some b else if b =? 1 then Some a else None.
Fixpoint brev (a b : list nat) : option (list nat) :=
  match a, b with
  | [], _ => Some b
  | _, [] => Some a
  | x :: a', y :: b' => match bdim x y, brev a' b' with Some d, Some r => Some (d :: r) | _, _ => None end
  end.
Definition bshape (a b : list nat) : option (list nat) := option_map (@rev nat) (brev (rev a) (rev b)).
(** where the entry [idx] of the result is read in an array of shape [s] *)
Definition source (s idx : list nat) : list nat :=
  map2 (fun d i => if d =? 1 then 0 else i) s (skipn (length idx - length s) idx).
(** jnp.where(mask, x, v) with a scalar v *)
Definition where_ {A : Type} (mask : arr bool) (x : arr A) (v : A) : option (arr A) :=
  match bshape (shape mask) (shape x) with
  | None => None
  | Some o => Some (Arr o (map (fun k => let idx := unravel o k in
                                  if nth (ravel (shape mask) (source (shape mask) idx)) (data mask) false
                                  then nth (ravel (shape x) (source (shape x) idx)) (data x) v else v) (seq 0 (size o))))
  end.
(** mask[..., None], repeated until the rank is [n], lines 59-60 and 67-68 *)
Definition pad (n : nat) (s : list nat) : list nat := s ++ repeat 1 (n - length s).
(** The shape of mask_broadcast, 54-71; the data are those of the mask.  A negative axis goes to the else of 69. *)
Definition mask_shape (axis : option Z) (s xs : list nat) : list nat :=
  match axis with
  | Some 0%Z => pad (length xs) s
  | Some 1%Z => pad (length xs) (if (length s =? 1) && (1 <? length xs) then 1 :: s else s)
  | _ => s
  end.
(** apply_mask_fn, 48-74 *)
Definition mask_leaf {A : Type} (axis : option Z) (v : A) (mask : arr bool) (x : arr A) : option (arr A) :=
  where_ (Arr (mask_shape axis (shape mask) (shape x)) (data mask)) x v.
(** __call__, 31-77 *)
Definition flax_apply_mask {A : Type} (axis : option Z) (v : A) (mask : arr bool) (input : tree (arr A)) : option (tree (arr A)) :=
  match axis with
  | Some z => if (1 <? z)%Z then None else tree_mapM (mask_leaf axis v mask) input
  | None => tree_mapM (mask_leaf axis v mask) input
  end.
