(** The bytes held in a nested dictionary, leaf by leaf, and names in any case. *)
From Coq Require Import String Ascii List Bool Arith Reals.
From Verif Require Import Model.FlaxOptim Spec.GraphSpec.
Import ListNotations.
Local Open Scope string_scope.
Local Open Scope list_scope.

(** The leaves, with the keys that lead to them. *)
Fixpoint held (t : ptree nat) : list (list string * nat) :=
  match t with
  | PLeaf n => [([], n)]
  | PDict kvs => flat_map (fun kv => map (fun l => (fst kv :: fst l, snd l)) (held (snd kv))) kvs
  end.
Definition bytes_where (f : list string -> bool) (t : ptree nat) : nat := list_sum (map snd (filter (fun l => f (fst l)) (held t))).
(** A letter in lower case. *)
Definition small (c : ascii) : ascii := match find (fun p => Ascii.eqb (snd p) c) letters with Some p => fst p | None => c end.
Fixpoint folded (s : string) : string := match s with EmptyString => EmptyString | String c r => String (small c) (folded r) end.
(** "buffer" is in the name, in any case. *)
Fixpoint names_buffer (s : string) : bool :=
  match s with EmptyString => false | String _ r => String.prefix "buffer" (folded s) || names_buffer r end.
(** The leaves of a state by their first keys. *)
Definition under_params (p : list string) : bool := match p with k :: _ => String.eqb k "params" | [] => false end.
Definition not_params (p : list string) : bool := negb (under_params p).
Definition in_buffer (p : list string) : bool := match p with a :: k :: _ => String.eqb a "state" && names_buffer k | _ => false end.
