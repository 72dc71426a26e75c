(** Vocabulary for masked statistics as statistics (C141): arrays of finite numbers. *)
From Coq Require Import List Reals.
From Verif Require Import Model.Float Model.Masks Spec.MaskSpec.
Import ListNotations.
Local Open Scope R_scope.

Definition finite_array (s : list nat) (l : list R) : arr fl := Arr s (map Fin l).
(** the two masks of the same shape: united, and without common entry *)
Definition either (ms ns : list bool) : list bool := map (fun b => orb (fst b) (snd b)) (combine ms ns).
Definition apart (ms ns : list bool) : Prop := Forall (fun b => andb (fst b) (snd b) = false) (combine ms ns).
Definition sign (c : R) : R := if Rlt_b c 0 then Ropp 1 else 1.
Definition all_equal (l : list R) : Prop := forall a b, In a l -> In b l -> a = b.
(** standard deviation with regularisation [eps] for the variance [v] *)
Definition regular_std (eps v : R) : R := if Rlt_b 0 v then sqrt (eps + v) else 0.
