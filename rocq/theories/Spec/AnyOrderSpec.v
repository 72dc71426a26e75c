(** Vocabulary of merged streams whose times are in any order (C142). *)
From Coq Require Import ZArith List.
From Verif Require Import Model.Stream Spec.StreamSpec.
Import ListNotations.

(** [rd] is the part of [g] in front of its first observation that is not strictly before [T]. *)
Definition delivered {V : Type} (T : Z) (g rd : list (@obs V)) : Prop :=
  exists rest, g = rd ++ rest /\ Forall (fun o => (fst o < T)%Z) rd /\
    match rest with [] => True | o :: _ => (T <= fst o)%Z end.
(** [T] is the greatest of the embedded times of the local observations [l]. *)
Definition furthest {V : Type} (embed : Z -> Z) (l : list (@obs V)) (T : Z) : Prop :=
  In T (map (fun o => embed (fst o)) l) /\ Forall (fun o => (embed (fst o) <= T)%Z) l.
(** What a stream configured by [cfg] shows when it remembers the observations [l]. *)
Definition shown {V : Type} (cfg : @sec_cfg V) (l : list (@obs V)) : @out V :=
  match maxlen cfg with
  | None => One (last (map real l) (None, default cfg))
  | Some n => Win (padded_window n (None, default cfg) l)
  end.
