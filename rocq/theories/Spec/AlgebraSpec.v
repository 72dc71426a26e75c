(** Specification vocabulary for C131-C134: affine images of series with missing values, and merged bars. *)
From Coq Require Import List Reals Arith.
From Verif Require Import Model.Float Model.Dynamics.
Import ListNotations.
Local Open Scope R_scope.

(** a x + b on a series with missing values, and on outputs (a missing output stays missing) *)
Definition affine (a b : R) (o : option R) : option R := option_map (fun x => a * x + b) o.
Definition affine_fl (a b : R) (y : fl) : fl := match y with Fin x => Fin (a * x + b) | v => v end.

(** the sum of two series, missing where one of them is *)
Definition plus_opt (xy : option R * option R) : option R :=
  match xy with (Some x, Some y) => Some (x + y) | _ => None end.
Definition plus_fl (xy : fl * fl) : fl := match xy with (Fin x, Fin y) => Fin (x + y) | _ => NaN end.

(** two series missing at the same steps *)
Definition same_holes (xs ys : list (option R)) : Prop :=
  Forall2 (fun x y => x = None <-> y = None) xs ys.

(** The larger and the smaller of two values, a missing one being ignored *)
Definition larger (a b : fl) : fl := if isnan a then b else if isnan b then a else if flt a b then b else a.
Definition smaller (a b : fl) : fl := if isnan a then b else if isnan b then a else if flt b a then b else a.
(** The bar of two consecutive bins from their bars *)
Definition merged (o1 o2 : ohlc) : ohlc :=
  Ohlc (if isnan (o_open o1) then o_open o2 else o_open o1) (larger (o_high o1) (o_high o2))
       (smaller (o_low o1) (o_low o2)) (if isnan (o_close o2) then o_close o1 else o_close o2).
