(** Independent vocabulary for C103: what it is for a number to be the maximum, minimum, mean, median or
    standard deviation of a list of readings. *)
From Coq Require Import List Reals Permutation Sorted.
Import ListNotations.
Local Open Scope list_scope.

Definition is_max (m : R) (l : list R) : Prop := In m l /\ forall x, In x l -> (x <= m)%R.
Definition is_min (m : R) (l : list R) : Prop := In m l /\ forall x, In x l -> (m <= x)%R.

Fixpoint total (l : list R) : R := match l with [] => 0%R | x :: r => (x + total r)%R end.
Definition is_mean (m : R) (l : list R) : Prop := (m * INR (length l))%R = total l.

(** the middle of the sorted readings, or half-way between the two middle ones *)
Definition is_median (m : R) (l : list R) : Prop :=
  exists s, Permutation s l /\ StronglySorted Rle s /\
    ((exists a b, s = a ++ m :: b /\ length a = length b) \/
     (exists a x y b, s = a ++ x :: y :: b /\ length a = length b /\ m = ((x + y) / 2)%R)).

(** the sample standard deviation: its square times n - 1 is the sum of the squared distances to the mean *)
Definition is_stdev (d : R) (l : list R) : Prop :=
  (0 <= d)%R /\ exists m, is_mean m l /\
    (d * d * (INR (length l) - 1))%R = total (map (fun x => ((x - m) * (x - m))%R) l).

(** readings in seconds, as milliseconds *)
Definition in_ms (l : list R) : list R := map (fun t => (t * 1000)%R) l.

(** how much each reading exceeds the one before, [prev] coming before the first *)
Fixpoint increases (prev : R) (l : list R) : list R :=
  match l with [] => [] | x :: r => Rmax 0 (x - prev) :: increases x r end.
