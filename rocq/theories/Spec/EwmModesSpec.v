(** The exponentially weighted average in its three modes. *)
From Coq Require Import List ZArith Reals.
From Verif Require Import Model.Float Model.Ewm Spec.EwmSpec.
Import ListNotations.
Local Open Scope R_scope.

(** The average of everything seen so far with the smoothing factor [a]; [None] if all is missing. *)
Definition exp_weighted (mode : adjust_mode) (ignore : bool) (a : R) (seen : list (option R)) : option R :=
  match mode with
  | AdjTrue => exp_average ignore a seen
  | AdjFalse => exp_recursion ignore a seen
  | AdjLinear => match valid_obs seen with [] => None | l => Some (linear_recursion a l) end
  end.

(** Column [j] of a table. *)
Definition column (j : nat) (table : list (list fl)) : list fl := map (fun row => nth j row NaN) table.
