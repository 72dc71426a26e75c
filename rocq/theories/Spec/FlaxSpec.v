(** Vocabulary for the flax modules. *)
From Coq Require Import List ZArith.
From Verif Require Import Model.Unroll Model.Float Model.Modules Model.FlaxModules.
Import ListNotations.

(** The flax module called on [xs] from the initial values of its variables gives the outputs of the
    unrolled haiku module. *)
Definition same_outputs {S1 S2 X Y : Type} (m : flax_module S1 X Y) (h : transformed unit unit S2 X Y)
  (xs : list X) : Prop :=
  exists sF, run h xs = Some (flax_from_scratch m xs, sF).

(** [l] rotated to the left by [r]. *)
Definition rotated {A : Type} (r : nat) (l : list A) : list A := skipn r l ++ firstn r l.

(** The last [m] elements of [xs], preceded by [f] if there are less. *)
Definition padded_window {A : Type} (m : nat) (f : A) (xs : list A) : list A :=
  repeat f (m - length xs) ++ skipn (length xs - m) xs.

(** The int32 write index of a ring of [m] entries keeps the order over the calls [xs]: less than 2^31 calls, or
    [m] a power of two. *)
Definition index_safe {X : Type} (m : nat) (xs : list X) : Prop :=
  (Z.of_nat (length xs) < 2 ^ 31 \/ (Z.of_nat m | 2 ^ 32))%Z.

Definition not_inf (x : fl) : Prop := match x with PInf | NInf => False | _ => True end.
