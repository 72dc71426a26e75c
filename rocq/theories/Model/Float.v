(** Float values of the model: IEEE special values with exact real arithmetic.
    Models the jnp/numpy float scalars used throughout /repo/src/wax.
    Simplifications: no rounding, no overflow, a single (positive) zero: x/0 is +-inf by the sign
    of x and 0/0 is NaN. *)
From Coq Require Import Reals List.
Import ListNotations.
Local Open Scope R_scope.

Inductive fl : Type := NaN | PInf | NInf | Fin (r : R).

Definition Req_b (a b : R) : bool := if Req_EM_T a b then true else false.
Definition Rlt_b (a b : R) : bool := if Rlt_dec a b then true else false.
Definition Rle_b (a b : R) : bool := if Rle_dec a b then true else false.

Definition isnan (x : fl) : bool := match x with NaN => true | _ => false end.
(** jnp.isposinf / jnp.isneginf are not used by the code; jnp.isfinite: *)
Definition isfinite (x : fl) : bool := match x with Fin _ => true | _ => false end.

Definition fneg (x : fl) : fl :=
  match x with NaN => NaN | PInf => NInf | NInf => PInf | Fin r => Fin (- r) end.

Definition fadd (x y : fl) : fl :=
  match x, y with
  | NaN, _ | _, NaN => NaN
  | PInf, NInf | NInf, PInf => NaN
  | PInf, _ | _, PInf => PInf
  | NInf, _ | _, NInf => NInf
  | Fin a, Fin b => Fin (a + b)
  end.

Definition fsub (x y : fl) : fl := fadd x (fneg y).

(** infinity with the sign of r times the sign of s (s = true: positive) *)
Definition signed_inf (s : bool) (r : R) : fl :=
  if Req_b r 0 then NaN
  else if Rlt_b 0 r then (if s then PInf else NInf) else (if s then NInf else PInf).

Definition fmul (x y : fl) : fl :=
  match x, y with
  | NaN, _ | _, NaN => NaN
  | PInf, PInf | NInf, NInf => PInf
  | PInf, NInf | NInf, PInf => NInf
  | PInf, Fin b => signed_inf true b
  | NInf, Fin b => signed_inf false b
  | Fin a, PInf => signed_inf true a
  | Fin a, NInf => signed_inf false a
  | Fin a, Fin b => Fin (a * b)
  end.

Definition fdiv (x y : fl) : fl :=
  match x, y with
  | NaN, _ | _, NaN => NaN
  | PInf, PInf | PInf, NInf | NInf, PInf | NInf, NInf => NaN
  | PInf, Fin b => if Rlt_b b 0 then NInf else PInf
  | NInf, Fin b => if Rlt_b b 0 then PInf else NInf
  | Fin _, PInf | Fin _, NInf => Fin 0
  | Fin a, Fin b => if Req_b b 0 then signed_inf true a else Fin (a / b)
  end.

(** Comparisons: false when a NaN is involved, except [!=]. *)
Definition flt (x y : fl) : bool :=
  match x, y with
  | NaN, _ | _, NaN => false
  | NInf, NInf => false
  | NInf, _ => true
  | _, NInf => false
  | PInf, _ => false
  | Fin _, PInf => true
  | Fin a, Fin b => Rlt_b a b
  end.
Definition feq (x y : fl) : bool :=
  match x, y with
  | PInf, PInf | NInf, NInf => true
  | Fin a, Fin b => Req_b a b
  | _, _ => false
  end.
Definition fle (x y : fl) : bool := orb (flt x y) (feq x y).
Definition fne (x y : fl) : bool := negb (feq x y).

(** jnp.maximum / jnp.minimum: NaN propagates. *)
Definition fmax (x y : fl) : fl :=
  if isnan x then NaN else if isnan y then NaN else if flt x y then y else x.
Definition fmin (x y : fl) : fl :=
  if isnan x then NaN else if isnan y then NaN else if flt y x then y else x.

(** jnp.where on scalars *)
Definition fwhere {A : Type} (c : bool) (a b : A) : A := if c then a else b.

(** sum over an axis *)
Definition fsum (l : list fl) : fl := fold_left fadd l (Fin 0).

(** jnp.sqrt *)
Definition fsqrt (x : fl) : fl :=
  match x with
  | NaN | NInf => NaN
  | PInf => PInf
  | Fin r => if Rlt_b r 0 then NaN else Fin (sqrt r)
  end.

(** jnp.nan_to_num(x, nan=a, posinf=b, neginf=c) *)
Definition nan_to_num (a b c x : fl) : fl :=
  match x with NaN => a | PInf => b | NInf => c | Fin r => Fin r end.
