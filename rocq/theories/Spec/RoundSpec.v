(** Specification vocabulary for rounded arithmetic. *)
From Coq Require Import ZArith Reals.
From Flocq Require Import Core.
From Verif Require Import Model.Float.
Local Open Scope R_scope.

(** A rounding mode: monotone, idempotent, exact on 0, 1, 2 and on the differences 1 - x for
    representable x between 1/2 and 1, and with relative error at most [u] up to the absolute error
    [eta] (near 0). *)
Record rounding (u eta : R) (rd : R -> R) : Prop := Rounding {
  rd_mono : forall x y, x <= y -> rd x <= rd y;
  rd_idem : forall x, rd (rd x) = rd x;
  rd_zero : rd 0 = 0;
  rd_one : rd 1 = 1;
  rd_two : rd 2 = 2;
  rd_exact_diff : forall x, rd x = x -> 1 / 2 <= x <= 1 -> rd (1 - x) = 1 - x;
  rd_error : forall x, Rabs (rd x - x) <= u * Rabs x + eta }.

(** IEEE single and double precision: 24 and 53 bits, rounding to nearest, ties to even, with
    gradual underflow. *)
Definition single (x : R) : R := round radix2 (FLT_exp (-149) 24) ZnearestE x.
Definition double (x : R) : R := round radix2 (FLT_exp (-1074) 53) ZnearestE x.

(** Both missing, or both finite and at most [eps] apart. *)
Definition within (eps : R) (x y : fl) : Prop :=
  match x, y with
  | NaN, NaN => True
  | Fin a, Fin b => Rabs (a - b) <= eps
  | _, _ => False
  end.
(** A missing value, or a finite one of absolute value at most [X]. *)
Definition bounded (X : R) (x : fl) : Prop :=
  match x with NaN => True | Fin r => Rabs r <= X | _ => False end.

(** The largest finite numbers of the two formats. *)
Definition max_single : R := (2 - / 2 ^ 23) * 2 ^ 127.
Definition max_double : R := (2 - / 2 ^ 52) * 2 ^ 1023.

(** [v] approximates [y]: equal if [y] is not finite, otherwise with three rounding errors relative
    to 1 + |y|. *)
Definition pct_close (u eta : R) (v y : fl) : Prop :=
  match y with
  | Fin r => exists w, v = Fin w /\ Rabs (w - r) <= 3 * u * (1 + Rabs r) + 3 * eta
  | _ => v = y
  end.

(** A correctly rounded power function. *)
Definition rounded_power (rd : R -> R) (b k : R) : R := rd (if Req_b b 0 then 0 else Rpower b k).

(** Counting by 1 in a format: whole numbers up to [N] are exact, and [N] + 1 rounds to [N]. *)
Definition counts_to (rd : R -> R) (N : Z) : Prop :=
  (forall n, (0 <= n <= N)%Z -> rd (IZR n) = IZR n) /\ rd (IZR N + 1) = IZR N.
(** A power function whose error on the unit interval is at most [e]. *)
Definition power_within (e : R) (pw : R -> R -> R) : Prop :=
  forall b n, 0 <= b <= 1 -> (1 <= n)%nat -> Rabs (pw b (INR n) - b ^ n) <= e.
