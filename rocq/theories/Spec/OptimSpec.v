(** Vocabulary for online optimisation. *)
From Coq Require Import List Reals.
From Verif Require Import Model.Float Model.Optim.
Import ListNotations.

(** What a gradient becomes before it is given to the optimiser: NaN is 0, the infinities are +-[big]. *)
Definition made_finite (big : R) (x : fl) : fl :=
  match x with NaN => Fin 0%R | PInf => Fin big | NInf => Fin (- big)%R | Fin r => Fin r end.
(** NaN and the infinities become 0. *)
Definition zeroed (x : fl) : fl := match x with Fin r => Fin r | _ => Fin 0%R end.
Definition each_entry (f : fl -> fl) (g : pmap array) : pmap array :=
  map (fun kv => (fst kv, map f (snd kv))) g.

(** [q] is [p] plus the updates [u], array by array and entry by entry. *)
Definition moved (p u q : pmap array) : Prop :=
  map fst q = map fst p /\
  forall key v d, get key p = Some v -> get key u = Some d -> length d = length v ->
    exists w, get key q = Some w /\ length w = length v /\
      forall i a b, nth_error v i = Some a -> nth_error d i = Some b -> nth_error w i = Some (fadd a b).
