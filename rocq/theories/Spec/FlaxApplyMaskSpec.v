(** Arrays of any rank, read entry by entry. *)
From Coq Require Import List Bool Arith.
From Verif Require Import Model.Tree Model.Masks Spec.MaskSpec.
Import ListNotations.

(** [idx] is a position in an array of shape [s]. *)
Definition inside (s idx : list nat) : Prop := Forall2 (fun i d => i < d) idx s.
(** The entry at a position: the array is a list of blocks, one for each first coordinate. *)
Fixpoint block {A : Type} (s : list nat) (l : list A) (idx : list nat) : option A :=
  match s, idx with
  | [], [] => nth_error l 0
  | d :: s', i :: r => if i <? d then block s' (firstn (size s') (skipn (i * size s') l)) r else None
  | _, _ => None
  end.
Definition entry {A : Type} (a : arr A) (idx : list nat) : option A := block (shape a) (data a) idx.
(** The k-th dimension from the end; dimensions that are not there count as 1. *)
Definition dim_from_end (k : nat) (s : list nat) : nat := nth k (rev s) 1.
(** [o] is the shape of the two shapes together: from the end, each pair of dimensions is equal, or one of them is 1. *)
Definition together (a b o : list nat) : Prop :=
  length o = Nat.max (length a) (length b) /\
  forall k, k < length o -> let x := dim_from_end k a in let y := dim_from_end k b in let z := dim_from_end k o in
    (x = y /\ z = x) \/ (x = 1 /\ z = y) \/ (y = 1 /\ z = x).
(** What remains at a position: the entry where the mask is true, else [v]. *)
Definition kept {A : Type} (m : option bool) (x : option A) (v : A) : option A :=
  match m with Some true => x | Some false => Some v | None => None end.
