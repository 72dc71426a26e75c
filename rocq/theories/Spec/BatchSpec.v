(** Specification vocabulary for batches: lane i of a sequence of batches, and the module alone as
    seen by lane i. *)
From Coq Require Import List.
From Verif Require Import Model.Unroll.

Definition column {A : Type} (i : nat) (rows : list (list A)) : list (option A) :=
  map (fun r => nth_error r i) rows.

Section Lane.
  Context {K P S X Y : Type} (split : K -> K * K) (splitn : nat -> K -> list K)
    (tf : transformed K P S X Y).

  (** key seen by lane [i] out of [n] when the batched call receives key [k]: none, or the i-th of
      the n keys split from the first key drawn from [k] *)
  Definition lane_key (split_rng : bool) (n i : nat) (k : option K) : option K :=
    if split_rng then
      match k with Some k => nth_error (splitn n (snd (split k))) i | None => None end
    else None.

  (** the module alone, run with the key of lane i *)
  Definition lane_module (split_rng : bool) (n i : nat) : transformed K P S X Y :=
    Transformed (t_init tf) (fun p s k x => t_apply tf p s (lane_key split_rng n i k) x).
End Lane.
