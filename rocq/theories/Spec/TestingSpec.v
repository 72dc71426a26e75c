(** Vocabulary of C127: trees which agree leaf by leaf. *)
From Coq Require Import String List Bool Reals.
From Verif Require Import Model.Float Model.Testing.
Import ListNotations.
Local Open Scope list_scope.

(** An array has as many entries as its shape says. *)
Definition proper (l : tleaf) : Prop :=
  match l with TNum _ _ => True | TArr _ _ s d => length d = fold_right Nat.mul 1 s end.
Definition same_shape (a b : tleaf) : Prop :=
  match a, b with TArr _ _ s _, TArr _ _ t _ => s = t | _, _ => True end.
(** Equal, and not NaN. *)
Definition same_value (a b : fl) : Prop := a = b /\ a <> NaN.
(** Within 1e-8 + 1e-5 |y|, or the same infinity. *)
Definition near (a b : fl) : Prop :=
  (exists x y, a = Fin x /\ b = Fin y /\ Rabs (x - y) <= 1 / 10 ^ 8 + 1 / 10 ^ 5 * Rabs y)%R \/
  (a = b /\ (a = PInf \/ a = NInf)).
Definition exact_dtype (d : string) : Prop := d = "int32"%string \/ d = "uint32"%string.
Inductive agree : tleaf -> tleaf -> Prop :=
| agree_num ty v w : same_value v w -> agree (TNum ty v) (TNum ty w)
| agree_exact c d s x y : exact_dtype d -> Forall2 same_value x y -> agree (TArr c d s x) (TArr c d s y)
| agree_near c d s x y : ~ exact_dtype d -> Forall2 near x y -> agree (TArr c d s x) (TArr c d s y).
(** A leaf without NaN. *)
Definition no_nan (l : tleaf) : Prop := match l with TNum _ v => v <> NaN | TArr _ _ _ d => ~ In NaN d end.
(** The text [w] occurs in [s]. *)
Definition occurs (w s : string) : Prop := exists a b, s = (a ++ w ++ b)%string.
(** [t] is [s] without the occurrences of [w], read from the left, one after the other. *)
Inductive erased (w : string) : string -> string -> Prop :=
| erased_end : erased w EmptyString EmptyString
| erased_skip r t : w <> EmptyString -> erased w r t -> erased w (w ++ r)%string t
| erased_keep c r t : (forall b, String c r <> (w ++ b)%string) -> erased w r t -> erased w (String c r) (String c t).
(** Two structures have the same text, "wax." apart in both, and "_test" apart in the second. *)
Definition same_text (s s' : string) : Prop :=
  exists t u, erased "wax." s t /\ erased "_test" s' u /\ erased "wax." u t.
