(** Vocabulary of the properties of merged streams (C40-C45). *)
From Coq Require Import ZArith List Bool.
From Verif Require Import Model.Stream.
Import ListNotations.

(** The last [n] elements of a list. *)
Definition lastn {A : Type} (n : nat) (l : list A) : list A := skipn (length l - n) l.

(** The observations strictly before the time [T]. *)
Definition strictly_before {V : Type} (T : Z) (g : list (@obs V)) : list (@obs V) :=
  filter (fun o => Z.ltb (fst o) T) g.
(** The observations not before the time [T0] and strictly before the time [T]. *)
Definition between {V : Type} (T0 T : Z) (g : list (@obs V)) : list (@obs V) :=
  filter (fun o => Z.leb T0 (fst o) && Z.ltb (fst o) T) g.

(** Timestamps in non-decreasing order. *)
Definition chronological {V : Type} (g : list (@obs V)) : Prop :=
  forall i j a b, i < j -> nth_error g i = Some a -> nth_error g j = Some b -> (fst a <= fst b)%Z.
(** A function which is non-decreasing on the times [Ts]. *)
Definition monotone_on (Ts : list Z) (e : Z -> Z) : Prop :=
  forall a b, In a Ts -> In b Ts -> (a <= b)%Z -> (e a <= e b)%Z.

(** The window of length [n] on the observations [l], chronological, missing ones in front. *)
Definition padded_window {V : Type} (n : nat) (fill : @cell V) (l : list (@obs V)) : list (@cell V) :=
  lastn n (repeat fill n ++ map real l).

(** The cells of an output. *)
Definition cells {V : Type} (o : @out V) : list (@cell V) := match o with One c => [c] | Win l => l end.

(** Two sets of secondary streams with the same configuration whose generators differ only by
    observations none of which is, for any of the local times [Ts], before the embedded time. *)
Definition same_past {V : Type} (Ts : list Z) (secs secs' : list (@sec_cfg V * list (@obs V))) : Prop :=
  Forall2 (fun s s' => fst s = fst s' /\
    exists past future future', snd s = past ++ future /\ snd s' = past ++ future' /\
      forall T o, In T Ts -> In o (future ++ future') -> (embed (fst s) T <= fst o)%Z) secs secs'.
