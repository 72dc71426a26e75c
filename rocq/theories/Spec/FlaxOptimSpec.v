(** Vocabulary for C77-C80: nested parameter dictionaries. *)
From Coq Require Import String Ascii List Bool Reals.
From Verif Require Import Model.Float Model.Optim Model.FlaxModules Model.FlaxOptim.
Import ListNotations.
Local Open Scope list_scope.

(** The name contains no "/". *)
Definition no_slash (s : string) : Prop :=
  forall a b, s <> String.append a (String "/"%char b).

(** A nested dictionary whose keys are distinct (as python's are) and contain no "/". *)
Inductive well_named {V : Type} : ptree V -> Prop :=
| wn_leaf v : well_named (PLeaf v)
| wn_dict kvs : NoDup (map fst kvs) -> Forall no_slash (map fst kvs) ->
    Forall (fun kv => well_named (snd kv)) kvs -> well_named (PDict kvs).

(** The predicate's answer for the parameter [v] at the path [p]: it is given the first and the last name. *)
Definition chosen {V : Type} (predicate : string -> string -> V -> bool) (p : list string) (v : V) : bool :=
  predicate (hd EmptyString p) (last p EmptyString) v.

(** Some parameter of the top-level module [k] is trainable. *)
Definition trains {V : Type} (predicate : string -> string -> V -> bool) (params : ptree V) (k : string) : Prop :=
  exists p v, leaf_at (k :: p) params = Some v /\ chosen predicate (k :: p) v = true.

(** Two nested dictionaries have the same parameters. *)
Definition same_params {V : Type} (a b : ptree V) : Prop := forall p, leaf_at p a = leaf_at p b.

(** A projection of the parameters which keeps the top-level modules. *)
Definition keeps_modules {V : Type} (project : ptree V -> ptree V) : Prop :=
  forall kvs, well_named (PDict kvs) ->
  exists kvs', project (PDict kvs) = PDict kvs' /\ map fst kvs' = map fst kvs /\ well_named (PDict kvs').

(** The optimiser without state whose update of an array only depends on its gradient (e.g. optax.sgd). *)
Definition memoryless (upd : array -> array) : nested_optimizer unit :=
  NestedOpt (fun _ => tt) (fun g _ _ => (ptree_map (fun _ v => upd v) [] g, tt)).
(** p + u on arrays *)
Definition array_add (a b : array) : array := map (fun ab => fadd (fst ab) (snd ab)) (combine a b).

(** NaN is read as zero and an infinite number as the largest finite one, with its sign. *)
Definition finite_value (fm : R) (v : fl) : fl :=
  match v with NaN => Fin 0%R | PInf => Fin fm | NInf => Fin (- fm)%R | Fin r => Fin r end.

(** The loss (regularised if asked) and the auxiliary data of a model for given parameters and other collections. *)
Definition loss_of {X Aux : Type} (model_apply : ptree array -> list (string * ptree array) -> X -> fl * Aux)
  (reg : option (fl -> ptree array -> Aux -> fl)) (params : ptree array) (others : list (string * ptree array)) (x : X)
  : fl * Aux :=
  let '(l, a) := model_apply params others x in (match reg with Some r => r l params a | None => l end, a).
Definition project_with (project : option (ptree array -> ptree array)) (t : ptree array) : ptree array :=
  match project with Some f => f t | None => t end.
(** The collections of variables other than "params". *)
Definition other_collections (vars : list (string * ptree array)) : list (string * ptree array) :=
  filter (fun kv => negb (String.eqb (fst kv) "params")) vars.
(** A function which only reads the parameters (not the order of the keys). *)
Definition reads_params {B : Type} (f : ptree array -> B) : Prop := forall a b, same_params a b -> f a = f b.

(** A parameter-free module whose state is the collection "state" of its variables. *)
Definition state_only {S X Y : Type} (m : flax_module S X Y) (v : list (string * S)) (x : X)
  : option (Y * list (string * S)) :=
  match sget "state" v with
  | Some s => let '(y, s') := fx_call m s x in Some (y, sset "state" s' v)
  | None => None
  end.
