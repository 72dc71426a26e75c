(** Specification vocabulary for masks. *)
From Coq Require Import List Reals.
From Verif Require Import Model.Float Model.Masks.
Import ListNotations.
Local Open Scope R_scope.

(** An array whose number of entries is the product of its shape. *)
Definition well_shaped {A : Type} (a : arr A) : Prop := length (data a) = size (shape a).

(** The matrix with the given rows, all of length [c]. *)
Definition matrix {A : Type} (c : nat) (rows : list (list A)) : arr A :=
  Arr [length rows; c] (concat rows).
Definition rectangular {A : Type} (c : nat) (rows : list (list A)) : Prop :=
  Forall (fun r => length r = c) rows.
Definition col {A : Type} (d : A) (j : nat) (rows : list (list A)) : list A :=
  map (fun r => nth j r d) rows.

(** Entries of [xs] where the mask is true. *)
Fixpoint selected {A : Type} (ms : list bool) (xs : list A) : list A :=
  match ms, xs with
  | true :: ms', x :: xs' => x :: selected ms' xs'
  | false :: ms', _ :: xs' => selected ms' xs'
  | _, _ => []
  end.

(** Contribution of a value: NaN counts for 0, infinities for the largest float. *)
Definition contribution (fm : R) (x : fl) : R :=
  match x with NaN => 0 | PInf => fm | NInf => - fm | Fin r => r end.

Definition total (l : list R) : R := fold_right Rplus 0 l.
Definition mean_of (l : list R) : R := total l / INR (length l).
Definition var_of (l : list R) : R := mean_of (map (fun v => (v - mean_of l) ^ 2) l).
Definition second_moment (l : list R) : R := mean_of (map (fun v => v ^ 2) l).

(** The mean of a selection, NaN if nothing is selected. *)
Definition mean_or_nan (l : list R) : fl := match l with [] => NaN | _ => Fin (mean_of l) end.
(** The standard deviation for a variance [v], with the regularisation [eps] of the code, and 0 for
    a variance 0 or an empty selection. *)
Definition std_of (eps v : R) (l : list R) : fl :=
  match l with [] => Fin 0 | _ => if Rlt_b 0 v then Fin (sqrt (eps + v)) else Fin 0 end.

(** [x] and [x'] differ only where the mask is false. *)
Definition same_where {A : Type} (mask : arr bool) (x x' : arr A) : Prop :=
  shape x = shape x' /\
  forall k, nth_error (data mask) k = Some true -> nth_error (data x) k = nth_error (data x') k.
