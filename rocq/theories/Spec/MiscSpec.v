(** Vocabulary for C135-C137. *)
From Coq Require Import String List.
From Verif Require Import Model.Tree Model.Unroll Model.FlaxOptim Model.Gym Model.Variables.
Import ListNotations.

(** the values of the i-th leaf over time *)
Definition column {A} (i : nat) (ts : list (tree A)) : list A :=
  flat_map (fun t => match nth_error (tree_leaves t) i with Some v => [v] | None => [] end) ts.

(** the world in which on_train_start is called: after the reset, if there is one *)
Definition before_start {W O A R I : Type} (env : @environment W O A R I) (o : option O) (w : W) : W :=
  match o with None => snd (reset env w) | Some _ => w end.

(** a state: a dictionary without "params" *)
Definition clean {C} (s : variables C) : Prop := NoDup (map fst s) /\ ~ In "params"%string (map fst s).

(** successive calls, each with the state the previous one returned *)
Fixpoint applies {K P S X Y} (tf : transformed K P S X Y) (p : P) (s : S) (xs : list (option K * X)) : list Y * S :=
  match xs with
  | [] => ([], s)
  | (k, x) :: r => let '(y, s1) := t_apply tf p s k x in let '(ys, s2) := applies tf p s1 r in (y :: ys, s2)
  end.

(** the env.step calls of a log *)
Definition is_env_step {O A R I : Type} (e : @event O A R I) : bool := match e with EStep _ _ _ _ _ => true | _ => false end.
