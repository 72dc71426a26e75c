(** Vocabulary for the online supervised learner. *)
From Coq Require Import List Reals.
From Verif Require Import Model.Float Model.Optim Spec.OptimSpec.
Import ListNotations.

(** A dictionary of parameters has each key once. *)
Definition proper (p : pmap array) : Prop := NoDup (map fst p).
(** The optimiser maps dictionaries to dictionaries. *)
Definition keeps_proper {OS : Type} (opt : OS -> pmap array -> pmap array -> pmap array * OS) : Prop :=
  forall os p g, proper p -> proper (fst (opt os p g)).
(** A gradient only looks at the values of the function on dictionaries. *)
Definition on_dictionaries (grad : (pmap array -> fl) -> pmap array -> pmap array) : Prop :=
  forall f f' p, (forall q, proper q -> f q = f' q) -> grad f p = grad f' p.
