(** Vocabulary for the compressed buffers. *)
From Coq Require Import List Arith ZArith Reals Permutation Sorted.
From Verif Require Import Model.Float Model.FlaxModules Model.Compressed.
Import ListNotations.

(** The elements number 0, f, 2f, ... of [xs] ([k] is the number of the first one). *)
Fixpoint sampled_from {A : Type} (f k : nat) (xs : list A) : list A :=
  match xs with
  | [] => []
  | x :: r => if Nat.eqb (k mod f) 0 then x :: sampled_from f (k + 1) r else sampled_from f (k + 1) r
  end.
Definition sampled {A : Type} (f : nat) (xs : list A) : list A := sampled_from f 0 xs.

(** The non-NaN values. *)
Definition valid (l : list fl) : list fl := filter (fun v => negb (isnan v)) l.

(** [q] is the [p]-quantile of [values] by linear interpolation between order statistics. *)
Definition is_quantile (values : list R) (p q : R) : Prop :=
  exists s i w, Permutation values s /\ Sorted Rle s /\ (0 <= w < 1)%R /\
    (p * (INR (length s) - 1) = INR i + w)%R /\ i < length s /\ (w = 0%R \/ i + 1 < length s) /\
    q = ((1 - w) * nth i s 0 + w * nth (i + 1) s 0)%R.

(** How many of [xs] the hash function [i] puts in the bucket [j]. *)
Definition hits (num_buckets : nat) (to_int : fl -> Z) (i j : nat) (xs : list fl) : nat :=
  length (filter (fun x => Nat.eqb (bucket num_buckets i (to_int x)) j) xs).

(** The numbers a compressed buffer keeps in its buffers, estimates, table and compressed value (the counters and the
    inner variables of the EWMA are not counted). *)
Definition cells (st : cb_state) : nat :=
  match st with
  | CEwma _ _ _ => 1
  | CQuantile b est _ => length (ring b) + length est
  | CDownsample b _ => length (ring b)
  | CSketch sk => length (concat sk)
  | CNone b => length (ring b)
  end.
(** How many inputs have the same integer code as [x]. *)
Definition occurrences (to_int : fl -> Z) (x : fl) (xs : list fl) : nat :=
  length (filter (fun y => Z.eqb (to_int y) (to_int x)) xs).
