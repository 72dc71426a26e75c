(** Specification vocabulary for time series. *)
From Coq Require Import List Reals.
From Verif Require Import Model.Float.
Import ListNotations.

(** [last_valid_is pre v]: v is the most recent non-NaN value of [pre], NaN if there is none. *)
Definition last_valid_is (pre : list fl) (v : fl) : Prop :=
  (v = NaN /\ Forall (fun x => x = NaN) pre) \/
  (v <> NaN /\ exists before after, pre = before ++ v :: after /\ Forall (fun x => x = NaN) after).

(** the inputs at times max(0,t+1-h) .. t *)
Definition window {A : Type} (h t : nat) (xs : list A) : list A :=
  skipn (t + 1 - h) (firstn (t + 1) xs).

(** the non-missing values *)
Definition valid_values (l : list fl) : list fl := filter (fun x => negb (isnan x)) l.

(** sum of reals *)
Definition rsum (l : list R) : R := fold_right Rplus 0%R l.
