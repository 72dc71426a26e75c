(** Vocabulary for the state patterns of flax/core. *)
From Coq Require Import String List Bool Arith Relations Permutation Reals.
From Verif Require Import Model.FlaxModules Model.FlaxCore.
Import ListNotations.

(** A Python set may be iterated in any order. *)
Definition any_order (pick : list string -> list string -> list string) : Prop :=
  forall ordered remaining, Permutation (pick ordered remaining) remaining.

(** [d] is a declared dependency of [s]. *)
Definition needs (dependencies : list (string * list string)) (s d : string) : Prop :=
  exists l, lookup s dependencies = Some l /\ In d l.
(** ... both being active. *)
Definition needs_in (dependencies : list (string * list string)) (active : list string) (s d : string) : Prop :=
  In s active /\ In d active /\ needs dependencies s d.
(** No state depends on itself, directly or not. *)
Definition acyclic (R : string -> string -> Prop) : Prop := forall s, ~ clos_trans string R s s.

(** Neither [s] nor any state it depends on, directly or not, depends on itself. *)
Definition off_cycles (R : string -> string -> Prop) (s : string) : Prop :=
  forall q, clos_refl_trans string R s q -> ~ clos_trans string R q q.

(** [a] comes before [b] in [l]. *)
Definition before (l : list string) (a b : string) : Prop :=
  exists l1 l2 l3, l = l1 ++ a :: l2 ++ b :: l3.

(** [n] depends on the first name of [l], which depends on the second one, and so on. *)
Fixpoint dep_path (dependencies : list (string * list string)) (n : string) (l : list string) : Prop :=
  match l with
  | [] => True
  | d :: r => needs dependencies n d /\ dep_path dependencies d r
  end.
(** The longest chain of dependencies below [n] has length [k]. *)
Definition longest_path (dependencies : list (string * list string)) (n : string) (k : nat) : Prop :=
  (exists l, dep_path dependencies n l /\ length l = k) /\
  forall l, dep_path dependencies n l -> length l <= k.

(** The inputs for which the condition holds. *)
Definition events {X : Type} (ev : X -> bool) (xs : list X) : list X := filter ev xs.

(** The segments of [xs], each segment but the last one ending at the first element that satisfies [r]. *)
Fixpoint segments {X : Type} (r : X -> bool) (xs : list X) : list (list X) :=
  match xs with
  | [] => [[]]
  | x :: l =>
      if r x then [x] :: segments r l
      else match segments r l with
           | seg :: more => (x :: seg) :: more
           | [] => [[x]]
           end
  end.

(** The index of the last element of [xs] that satisfies [ev]. *)
Definition last_event {X : Type} (ev : X -> bool) (xs : list X) (i : nat) : Prop :=
  (exists x, nth_error xs i = Some x /\ ev x = true) /\
  forall j x, i < j -> nth_error xs j = Some x -> ev x = false.
Definition no_event {X : Type} (ev : X -> bool) (xs : list X) : Prop := forall x, In x xs -> ev x = false.

(** The last [n] elements. *)
Definition lastn {A : Type} (n : nat) (l : list A) : list A := skipn (length l - n) l.

(** [n] is the first declared transition out of [current] whose condition holds on [x]; there is none. *)
Definition first_transition {X : Type} (transitions : list (string * list (string * (X -> bool))))
  (current : string) (x : X) (n : string) : Prop :=
  exists before_ c after_, lookup current transitions = Some (before_ ++ (n, c) :: after_) /\
    c x = true /\ forall n' c', In (n', c') before_ -> c' x = false.
Definition no_transition {X : Type} (transitions : list (string * list (string * (X -> bool))))
  (current : string) (x : X) : Prop :=
  forall l n' c', lookup current transitions = Some l -> In (n', c') l -> c' x = false.

(** A module run alone on a list of inputs, from variables [s]: the outputs and the variables it leaves. *)
Definition alone {S X Y : Type} (m : flax_module S X Y) (s : S) (xs : list X) : list Y * S := flax_calls m s xs.

(** The numbers found under [k] in the dictionaries that [c] gives to the names [hs]. *)
Definition signals (c : list (string * pyval)) (k : string) (hs : list string) : list R :=
  flat_map (fun h => match lookup h c with
                     | Some (PDict d) => match lookup k d with Some (PNum b) => [b] | _ => [] end
                     | _ => []
                     end) hs.
(** 90 % of the current value and 10 % of each signal in turn. *)
Definition nudged (signals : list R) (a : R) : R := fold_left (fun v b => (9 / 10 * v + b / 10)%R) signals a.

(** The states visited: the current one, then those that are returned. *)
Definition visited {Y : Type} (current : string) (ys : list (Y * string)) : list string := current :: map snd ys.
(** What [l] has at the times when the state is [q]. *)
Fixpoint when {A : Type} (q : string) (states : list string) (l : list A) : list A :=
  match states, l with
  | s :: ss, a :: r => if String.eqb s q then a :: when q ss r else when q ss r
  | _, _ => []
  end.

(** {**a, **b} looks up [b] first. *)
Definition merged (a b d : list (string * pyval)) : Prop :=
  forall k, lookup k d = match lookup k b with Some v => Some v | None => lookup k a end.
(** What a pipeline passes on after a pattern which got [c] and returned [o]. *)
Definition passed_on (c o c' : pyval) : Prop :=
  match c, o with
  | PDict dc, PDict d => exists d', c' = PDict d' /\ merged dc d d'
  | _, _ => c' = o
  end.

(** What a module contributes to the outputs of a machine: the value it returns, or the message of the exception it
    raised, marked as failed. *)
Definition machine_entry (o : pyval + string) : pyval :=
  match o with
  | inl v => v
  | inr message => PDict [("error"%string, PStr message); ("status"%string, PStr "failed"%string)]
  end.
