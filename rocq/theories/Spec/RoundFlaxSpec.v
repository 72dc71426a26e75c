(** Vocabulary for the rounded flax modules. *)
From Coq Require Import List ZArith Reals.
From Verif Require Import Model.Float Model.Modules Model.Ewm.
Import ListNotations.

(** Every element is a number. *)
Definition all_finite (l : list fl) : Prop := Forall (fun v => exists r, v = Fin r) l.

(** The same configuration without a minimal number of observations: its results are the running averages. *)
Definition no_minimum (cfg : ewma_cfg) : ewma_cfg :=
  EwmaCfg (com cfg) 0 (adjust cfg) (ignore_na cfg) (initial_value cfg).
